(** Specification: the conditions, effects and function expressions that PDDL text can express
    in a given context (C31).  Nothing here models code. *)
From Coq Require Import String List Bool Arith ZArith.
From Verif Require Import Py Names Reqs Logic Lexer Parser Spec_Parse Spec_Print Names_facts.
Import ListNotations.
Open Scope string_scope.
Open Scope list_scope.

(** what a text is read as, in a context: declared requirements, parameters and constants *)
Definition condition_in (c : gctx) (text : string) : res form :=
  match read_text text with Some [s] => emptyor_pregd c s | _ => Err LarkSyntaxError end.
Definition effect_in (c : gctx) (text : string) : res form :=
  match read_text text with Some [s] => emptyor_effect c s | _ => Err LarkSyntaxError end.

(** the variables of a quantifier *)
Definition block (vs : list var) : Prop :=
  Forall legal_var vs /\ Forall one_type vs /\ untyped_last vs /\ repeats_same vs.

Section Context.
  Variable c : gctx.

  (** a term means itself in the context: a constant is the one declared with that name, a
      variable named like a parameter is that parameter, other variables have no type *)
  Definition fits (t : term) : Prop :=
    match t with
    | TConst n _ => legal_name n /\ g_const c n = Ok t
    | TVar v =>
        legal_name (v_name v)
        /\ match dict_get String.eqb (v_name v) (g_params c) with
           | Some w => same_var w v
           | None => v_tags v = []
           end
    end.

  (** a requirement that allows the feature is declared or implied *)
  Definition allowed (rs : list req) : Prop := exists r, In r rs /\ In r (g_ext c).

  Inductive expression : form -> Prop :=
  | E_fun n ts : legal_function n -> Forall fits ts -> expression (FNumFun n ts)
  | E_int z : (0 <= z)%Z -> expression (FNumVal (NInt z))
  | E_dec m e : (0 <= m)%Z -> expression (FNumVal (NDec m e))
  | E_sum ops : 2 <= length ops -> Forall expression ops -> expression (FBinFun BPlus ops)
  | E_product ops : 2 <= length ops -> Forall expression ops -> expression (FBinFun BTimes ops)
  | E_quotient a b : expression a -> expression b -> expression (FBinFun BDivide [a; b])
  | E_minus a : expression a -> expression (FBinFun BMinus [a]).

  Inductive atom_form : form -> Prop :=
  | A_pred n ts : legal_name n -> Forall fits ts -> name_consistent ts -> atom_form (FPred n ts)
  | A_eq l r : In EQUALITY (g_ext c) -> fits l -> fits r -> name_consistent [l; r] ->
      atom_form (FEq l r).

  Inductive condition : form -> Prop :=
  | C_atom f : atom_form f -> condition f
  | C_compare k a b : In k [BEqual; BLess; BLessEq; BGreater; BGreaterEq] ->
      expression a -> expression b -> condition (FBinFun k [a; b])
  | C_and ops : Forall condition ops -> condition (FBin OAnd ops)
  | C_or ops : allowed [DIS_PRECONDITION; ADL] -> Forall condition ops -> condition (FBin OOr ops)
  | C_imply a b : allowed [DIS_PRECONDITION; ADL] -> condition a -> condition b ->
      condition (FBin OImply [a; b])
  | C_not f : condition f -> condition (FNot f)
  | C_exists vs f : allowed [EXISTENTIAL_PRECONDITION; QUANTIFIED_PRECONDITION; ADL] ->
      block vs -> condition f -> condition (FQuant QExists vs f)
  | C_forall vs f : allowed [UNIVERSAL_PRECONDITION; QUANTIFIED_PRECONDITION; ADL] ->
      block vs -> condition f -> condition (FQuant QForall vs f).

  (** a literal or an assignment *)
  Inductive primitive : form -> Prop :=
  | P_atom f : atom_form f -> primitive f
  | P_not f : atom_form f -> primitive (FNot f)
  | P_assign k n ts e : In k [BAssign; BScaleUp; BScaleDown; BIncrease; BDecrease] ->
      legal_function n -> Forall fits ts -> expression e ->
      primitive (FBinFun k [FNumFun n ts; e]).

  (** the consequence of a conditional effect *)
  Inductive consequence : form -> Prop :=
  | Q_prim f : primitive f -> consequence f
  | Q_and ops : Forall primitive ops -> consequence (FBin OAnd ops).

  (** an effect; [true]: where a conjunction is allowed *)
  Inductive effect_form : bool -> form -> Prop :=
  | F_prim b f : primitive f -> effect_form b f
  | F_and ops : Forall (effect_form false) ops -> effect_form true (FBin OAnd ops)
  | F_forall b vs e : block vs -> effect_form true e -> effect_form b (FForall vs e)
  | F_when b f e : condition f -> consequence e -> effect_form b (FWhen f e)
  | F_oneof b ops : In NON_DETERMINISTIC (g_ext c) -> ops <> [] -> Forall (effect_form true) ops ->
      effect_form b (FBin OOneOf ops).
End Context.
