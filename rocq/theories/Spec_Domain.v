(** Specification: the domains that PDDL text can express (C33).  Nothing here models code. *)
From Coq Require Import String List Bool Arith ZArith.
From Verif Require Import Py Names Reqs Logic Built Validation Core Lexer Parser Spec Spec_Parse Spec_Print
  Spec_Text Names_facts.
Import ListNotations.
Open Scope string_scope.
Open Scope list_scope.

(** the context of a condition in a domain, below the parameters [vs] *)
Definition known (d : domain) (vs : list var) : gctx :=
  mkCtx (extend_reqs (d_reqs d)) (map (fun v => (v_name v, v)) vs)
        (fun n => match find (fun c => String.eqb (fst c) n) (d_constants d) with
                  | Some k => Ok (const_term k)
                  | None => Err LarkParseError
                  end)
        typed_list_variable.

(** every supertype is itself declared, "object" is not redeclared, and types are allowed *)
Definition types_expressible (d : domain) : Prop :=
  (forall t p, In (t, Some p) (d_types d) -> In p (map fst (d_types d)))
  /\ ~ In "object" (map fst (d_types d))
  /\ (d_types d <> [] -> typing_on (d_reqs d)).

(** a declared predicate: variables only, the untyped ones at the end *)
Definition predicate_expressible (p : atom) : Prop :=
  exists vs, snd p = map TVar vs /\ legal_name (fst p)
    /\ Forall legal_var vs /\ repeats_same vs /\ untyped_last vs.
(** a declared function: besides, one type per variable; [total-cost] has none *)
Definition function_expressible (f : atom * option string) : Prop :=
  exists vs, snd (fst f) = map TVar vs /\ legal_function (fst (fst f))
    /\ block vs /\ (fst (fst f) = "total-cost" -> vs = [])
    /\ (snd f = None \/ snd f = Some "number").

Definition action_expressible (d : domain) (a : action) : Prop :=
  exists vs pre eff, a = mkAction (a_name a) (map TVar vs) (Some pre) (Some eff)
    /\ legal_name (a_name a) /\ block vs /\ NoDup (map v_name vs)
    /\ built pre /\ condition (known d vs) pre
    /\ built eff /\ effect_form (known d vs) true eff.

(** ** Derived predicates *)
(** the same formula without the types of the variables that occur in its atoms *)
Definition bare_term (t : term) : term :=
  match t with TConst n g => TConst n g | TVar v => TVar (mkVar (v_name v) []) end.
Fixpoint bare (f : form) : form :=
  match f with
  | FPred n ts => FPred n (map bare_term ts)
  | FEq l r => FEq (bare_term l) (bare_term r)
  | FNumFun n ts => FNumFun n (map bare_term ts)
  | FNumVal v => FNumVal v
  | FBinFun k ops => FBinFun k (map bare ops)
  | FBin k ops => FBin k (map bare ops)
  | FNot g => FNot (bare g)
  | FQuant q vs g => FQuant q vs (bare g)
  | FWhen g e => FWhen (bare g) (bare e)
  | FForall vs e => FForall vs (bare e)
  end.
(** the types of the variables in scope *)
Definition scope := string -> list string.
Definition enter (vs : list var) (s : scope) : scope :=
  fun n => match find (fun v => String.eqb (v_name v) n) vs with Some v => v_tags v | None => s n end.
Definition in_scope (s : scope) (t : term) : Prop :=
  match t with TConst _ _ => True | TVar v => same_set (v_tags v) (s (v_name v)) end.
(** every variable has the types of the quantifier or head variable it refers to, or none *)
Fixpoint scoped (s : scope) (f : form) : Prop :=
  match f with
  | FPred _ ts | FNumFun _ ts => Forall (in_scope s) ts
  | FEq l r => in_scope s l /\ in_scope s r
  | FNumVal _ => True
  | FBinFun _ ops | FBin _ ops => fold_right (fun g p => scoped s g /\ p) True ops
  | FNot g => scoped s g
  | FQuant _ vs g => scoped (enter vs s) g
  | FWhen g e => scoped s g /\ scoped s e
  | FForall vs e => scoped (enter vs s) e
  end.
(** an argument of the head and the declared argument: an untyped one is declared untyped, the
    types of a typed one are declared ones or have a declared one as their supertype *)
Definition head_arg (types : types_dict) (v : var) (t : term) : Prop :=
  match v_tags v with
  | [] => t_tags t = []
  | gs => t_tags t = [] \/ forall g, In g gs ->
            In g (t_tags t) \/ exists p, In (g, Some p) types /\ In p (t_tags t)
  end.
Definition derived_expressible (d : domain) (x : derived) : Prop :=
  exists vs ts, dp_terms x = map TVar vs /\ legal_name (dp_name x)
    /\ Forall legal_var vs /\ repeats_same vs /\ untyped_last vs
    /\ In (dp_name x, ts) (d_predicates d)
    /\ (forall us, In (dp_name x, us) (d_predicates d) -> us = ts)
    /\ Forall2 (head_arg (d_types d)) vs ts
    /\ built (dp_cond x) /\ condition (known d []) (bare (dp_cond x))
    /\ scoped (enter vs (fun _ => [])) (dp_cond x).

Record expressible_domain (d : domain) : Prop := mkED {
  ed_reqs : ~ In OBJECT_FLUENTS (d_reqs d);
  ed_types : types_expressible d;
  ed_constants : forall n g, In (n, g) (d_constants d) ->
    legal_name n /\ (forall t, g = Some t -> legal_type t);
  ed_predicates : Forall predicate_expressible (d_predicates d);
  ed_functions : Forall function_expressible (d_functions d);
  ed_derived : Forall (derived_expressible d) (d_derived d);
  ed_actions : Forall (action_expressible d) (d_actions d)
}.
