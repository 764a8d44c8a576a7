(** Model of the grammar rules of pddl/parser/grammar.lark together with the callbacks of
    DomainTransformer (pddl/parser/domain.py), ProblemTransformer (problem.py) and
    PlanTransformer (plan.py).

    One function per grammar rule; it checks the shape of the tree against the rule (raising
    LarkSyntaxError) and then does what the callback does.  Sub-rules are evaluated first, left
    to right, as Lark does. *)
From Coq Require Import String Ascii List Bool NArith ZArith DecimalString.
From Verif Require Import Py Names Reqs Logic Validation Core Lexer TypedList UpdateTags.
Import ListNotations.
Open Scope string_scope.
Open Scope list_scope.

(** the exception of Lark for a text that does not match the grammar (parser/base.py:64) *)
Definition syntax {A} : res A := Err LarkSyntaxError.
(** the same, for the rules that are only read *)
Definition of_opt {A} (o : option A) : res A := match o with Some a => Ok a | None => syntax end.

(** except ValueError as e: raise other *)
Definition except_value {A} (r : res A) (e : exn) : res A :=
  match r with Err ValueError => Err e | _ => r end.

(** a star of the grammar *)
Fixpoint mapO {A B} (f : A -> option B) (l : list A) : option (list B) :=
  match l with
  | [] => Some []
  | x :: xs => match f x, mapO f xs with Some y, Some ys => Some (y :: ys) | _, _ => None end
  end.

(** NAME and ?primitive_type (grammar.lark:102-103, 156) *)
Definition word (s : sexp) : option string :=
  match s with SAtom (TWord n) => Some n | _ => None end.

(** * Typed lists *)

(** grammar.lark:100-103 type_def, primitive_type; domain.py:514-526 type_def *)
Definition type_def (s : sexp) : option (list string) :=
  match s with
  | SAtom (TWord g) => Some [g]
  | SList (SAtom (TWord e) :: ts) =>
      if String.eqb e "either" then
        match ts with [] => None | _ => mapO word ts end
      else None
  | _ => None
  end.

(** grammar.lark:94-96 typed_list_variable: [seen] tells whether the current group already has
    a variable *)
Fixpoint tl_vars (seen : bool) (l : list sexp) : option (list (titem string)) :=
  match l with
  | [] => Some []
  | SAtom QMARK :: SAtom (TWord n) :: r =>
      match tl_vars true r with Some ts => Some (IItem n :: ts) | None => None end
  | SAtom (TOp o) :: t :: r =>
      if String.eqb o "-" && seen then
        match type_def t, tl_vars false r with
        | Some gs, Some ts => Some (ISep :: ITypes gs :: ts)
        | _, _ => None
        end
      else None
  | _ => None
  end.

(** the next word is "object" *)
Definition object_next (l : list sexp) : bool :=
  match l with SAtom (TWord n) :: _ => String.eqb n "object" | _ => false end.
(** grammar.lark:98-99 typed_list_name.  After a type, the word "object" is not taken for a name:
    in that state Lark's tables also accept OBJECT (grammar.lark:103), because the types of
    (either t object) are read in the same state, and the lexer prefers it to NAME (C71). *)
Fixpoint tl_names (seen : bool) (l : list sexp) : option (list (titem string)) :=
  match l with
  | [] => Some []
  | SAtom (TWord n) :: r =>
      match tl_names true r with Some ts => Some (IItem n :: ts) | None => None end
  | SAtom (TOp o) :: SAtom (TWord g) :: r =>
      if String.eqb o "-" && seen && negb (object_next r) then
        match tl_names false r with
        | Some ts => Some (ISep :: ITypes [g] :: ts)
        | None => None
        end
      else None
  | _ => None
  end.

(** domain.py:483-496 typed_list_variable *)
Definition typed_list_variable (l : list sexp) : res (list (string * list string)) :=
  let* ts := of_opt (tl_vars false l) in
  except_value (let* ix := parse_typed_list String.eqb parse_name ts true in
                Ok (typed_list_of_variables ix)) PDDLParsingError.

(** domain.py:475-481 typed_list_name *)
Definition typed_list_name (l : list sexp) : res (list (string * option string)) :=
  let* ts := of_opt (tl_names false l) in
  except_value (let* ix := parse_typed_list String.eqb parse_name ts false in
                typed_list_of_names ix) PDDLParsingError.

(** [Variable(var_name, tags) for var_name, tags in ...]: the tags are sets *)
Definition mk_vars (l : list (string * list string)) : res (list var) :=
  mapR (fun p => mk_var (fst p) (CSet (snd p))) l.

(** * Conditions and function expressions *)

(** What the callbacks of a condition depend on: the transformer's requirements, the parameters
    of the current action, the resolution of constant names and the treatment of the variables
    of a quantifier. *)
Record gctx : Type := mkCtx {
  g_ext : list req;
  g_params : list (string * var);
  g_const : string -> res term;
  g_vars : list sexp -> res (list (string * list string))
}.

(** grammar.lark:59-62 term: a constant name, or "?" NAME *)
Inductive pterm : Type := PConst (n : string) | PVar (n : string).
(** grammar.lark:59-62 term* *)
Fixpoint terms (l : list sexp) : option (list pterm) :=
  match l with
  | [] => Some []
  | SAtom (TWord n) :: r =>
      match terms r with Some ts => Some (PConst n :: ts) | None => None end
  | SAtom QMARK :: SAtom (TWord n) :: r =>
      match terms r with Some ts => Some (PVar n :: ts) | None => None end
  | _ => None
  end.

(** the callback [constant] (domain.py:414-420, problem.py:212-215) runs on the constants *)
Definition resolve (c : gctx) (t : pterm) : res (term + string) :=
  match t with
  | PConst n => let* k := g_const c n in Ok (inl k)
  | PVar n => Ok (inr n)
  end.
(** domain.py:394-399 _constant_or_variable; Variable(str(t), {}) *)
Definition constant_or_variable (c : gctx) (t : term + string) : res term :=
  match t with
  | inl k => Ok k
  | inr n => match dict_get String.eqb n (g_params c) with
             | Some v => Ok (TVar v)
             | None => let* v := mk_var n (CList []) in Ok (TVar v)
             end
  end.

(** grammar.lark:57 atomic_formula_term: LPAR predicate term* RPAR; domain.py:409-412 *)
Definition atomic_pred (c : gctx) (n : string) (args : list sexp) : res form :=
  let* ps := of_opt (terms args) in
  let* rs := mapR (resolve c) ps in
  let* ts := mapR (constant_or_variable c) rs in
  mk_pred n ts.
(** grammar.lark:58 LPAR EQUAL_OP term term RPAR; domain.py:403-408 *)
Definition atomic_eq (c : gctx) (args : list sexp) : res form :=
  match terms args with
  | Some [a; b] =>
      let* ra := resolve c a in
      let* rb := resolve c b in
      check (has EQUALITY (g_ext c)) (PDDLMissingRequirementError EQUALITY) ;;
      let* l := constant_or_variable c ra in
      let* r := constant_or_variable c rb in
      mk_eq l r
  | _ => syntax
  end.
(** grammar.lark:57-58 atomic_formula_term *)
Definition atomic_formula_term (c : gctx) (s : sexp) : res form :=
  match s with
  | SList (SAtom (TWord n) :: args) => atomic_pred c n args
  | SList (SAtom (TOp o) :: args) => if String.eqb o "=" then atomic_eq c args else syntax
  | _ => syntax
  end.

(** str.split at the first dot *)
Fixpoint split_dot (s : string) : string * option string :=
  match s with
  | "" => ("", None)
  | String c r =>
      if chr 46 c then ("", Some r)
      else let '(a, b) := split_dot r in (String c a, b)
  end.
(** int(s) of a string of digits (domain.py:332) *)
Definition digits (s : string) : res N :=
  match NilEmpty.uint_of_string s with Some u => Ok (N.of_uint u) | None => Err ValueError end.
(** domain.py:329-332 num_literal: float(n) when there is a dot, else int(n).  float() raises
    ValueError when there are two dots.  Simplification: a float is the exact decimal written (no
    binary rounding), and there is no limit on the number of digits. *)
Definition num_literal (s : string) : res num :=
  match split_dot s with
  | (_, None) => let* n := digits s in Ok (NInt (Z.of_N n))
  | (i, Some f) =>
      let* n := digits (i +++ f) in Ok (NDec (Z.of_N n) (String.length f))
  end.

(** grammar.lark:85-86 f_head; domain.py:467-473 *)
Definition f_head (c : gctx) (s : sexp) : res form :=
  match s with
  | SAtom (TWord n) => mk_numfun n []
  | SList (SAtom (TWord n) :: args) =>
      let* ps := of_opt (terms args) in
      let* rs := mapR (resolve c) ps in
      let* ts := mapR (constant_or_variable c) rs in
      mk_numfun n ts
  | _ => syntax
  end.

(** grammar.lark:70-83: which operator takes how many operands.  The rules give [+] and [*] two
    or more operands, [/] two, [-] one or two; but the LALR(1) tables resolve the conflict after
    "( -" (reduce MINUS to binary_op, or shift the operand of the unary rule) in favour of the
    shift, as Lark always does, so that a second operand is never accepted. *)
Definition arith_op (o : string) (n : nat) : option bfun :=
  if String.eqb o "+" then (if Nat.leb 2 n then Some BPlus else None)
  else if String.eqb o "*" then (if Nat.leb 2 n then Some BTimes else None)
  else if String.eqb o "/" then (if Nat.eqb n 2 then Some BDivide else None)
  else if String.eqb o "-" then (if Nat.eqb n 1 then Some BMinus else None)
  else None.

(** grammar.lark:79-83 f_exp; domain.py:446-465 *)
Fixpoint f_exp (c : gctx) (s : sexp) : res form :=
  match s with
  | SAtom (TNum n) => let* v := num_literal n in Ok (FNumVal v)
  | SList (SAtom (TOp o) :: args) =>
      match arith_op o (length args) with
      | Some k => let* ops := mapR (f_exp c) args in Ok (mk_binfun k ops)
      | None => syntax
      end
  | _ => f_head c s
  end.

(** grammar.lark:64-68 binary_comp; domain.py:299-308 *)
Definition comparison (o : string) : option bfun :=
  if String.eqb o ">=" then Some BGreaterEq
  else if String.eqb o ">" then Some BGreater
  else if String.eqb o "<=" then Some BLessEq
  else if String.eqb o "<" then Some BLess
  else if String.eqb o "=" then Some BEqual
  else None.

(** after "( =": a NAME or "?" starts a term (the conflict with f_head's NAME is resolved as a
    shift), anything else a function expression *)
Definition starts_term (l : list sexp) : bool :=
  match l with
  | SAtom (TWord _) :: _ => true
  | SAtom QMARK :: _ => true
  | _ => false
  end.

(** [bool({...} & self._extended_requirements)], as in domain.py:255-258 *)
Definition any_req (l : list req) (ext : list req) : bool := existsb (fun r => has r ext) l.

(** grammar.lark:31-38 gd; domain.py:237-327 gd, gd_not, gd_and, gd_or, gd_imply,
    gd_quantifiers, gd_comparison (whose requirement check is vacuous) *)
Fixpoint gd (c : gctx) (s : sexp) : res form :=
  match s with
  | SList (SAtom (TWord w) :: args) =>
      if String.eqb w "or" then
        let* fs := mapR (gd c) args in
        check (any_req [DIS_PRECONDITION; ADL] (g_ext c))
                  (PDDLMissingRequirementError DIS_PRECONDITION) ;;
        Ok (mk_or fs)
      else if String.eqb w "not" then
        match args with [x] => let* f := gd c x in Ok (mk_not f) | _ => syntax end
      else if String.eqb w "and" then let* fs := mapR (gd c) args in Ok (mk_and fs)
      else if String.eqb w "imply" then
        match args with
        | [x; y] =>
            let* f := gd c x in
            let* g := gd c y in
            check (any_req [DIS_PRECONDITION; ADL] (g_ext c))
                  (PDDLMissingRequirementError DIS_PRECONDITION) ;;
            Ok (mk_bin OImply [f; g])
        | _ => syntax
        end
      else if String.eqb w "exists" || String.eqb w "forall" then
        let '(q, r) := if String.eqb w "exists" then (QExists, EXISTENTIAL_PRECONDITION)
                       else (QForall, UNIVERSAL_PRECONDITION) in
        match args with
        | [SList vs; x] =>
            let* tl := g_vars c vs in
            let* f := gd c x in
            check (any_req [r; QUANTIFIED_PRECONDITION; ADL] (g_ext c))
                  (PDDLMissingRequirementError r) ;;
            let* vars := mk_vars tl in
            Ok (mk_quant q vars f)
        | _ => syntax
        end
      else atomic_pred c w args
  | SList (SAtom (TOp o) :: args) =>
      if String.eqb o "=" && starts_term args then atomic_eq c args
      else match comparison o, args with
           | Some k, [x; y] =>
               let* f := f_exp c x in let* g := f_exp c y in Ok (mk_binfun k [f; g])
           | _, _ => syntax
           end
  | _ => syntax
  end.

(** grammar.lark:29-30 emptyor_pregd; domain.py:229-235 *)
Definition emptyor_pregd (c : gctx) (s : sexp) : res form :=
  match s with SList [] => Ok (mk_or []) | _ => gd c s end.

(** * Effects *)

(** grammar.lark:88-92 assign_op; domain.py:379-392 num_effect *)
Definition assign_op (w : string) : option bfun :=
  if String.eqb w "assign" then Some BAssign
  else if String.eqb w "scale-up" then Some BScaleUp
  else if String.eqb w "scale-down" then Some BScaleDown
  else if String.eqb w "increase" then Some BIncrease
  else if String.eqb w "decrease" then Some BDecrease
  else None.

(** grammar.lark:50-52, 55 p_effect, num_effect; domain.py:364-369, 379-392 *)
Definition p_effect (c : gctx) (s : sexp) : res form :=
  match s with
  | SList (SAtom (TWord w) :: args) =>
      if String.eqb w "not" then
        match args with [x] => let* f := atomic_formula_term c x in Ok (mk_not f) | _ => syntax end
      else match assign_op w with
           | Some k =>
               match args with
               | [h; e] =>
                   let* f := f_head c h in let* g := f_exp c e in Ok (mk_binfun k [f; g])
               | _ => syntax
               end
           | None => atomic_formula_term c s
           end
  | _ => atomic_formula_term c s
  end.

(** grammar.lark:53-54 cond_effect; domain.py:371-377 *)
Definition cond_effect (c : gctx) (s : sexp) : res form :=
  match s with
  | SList (SAtom (TWord w) :: args) =>
      if String.eqb w "and" then let* fs := mapR (p_effect c) args in Ok (mk_and fs)
      else p_effect c s
  | _ => p_effect c s
  end.

(** grammar.lark:43-49 effect ([top = true]) and c_effect ([top = false]); domain.py:341-362 *)
Fixpoint effect (c : gctx) (top : bool) (s : sexp) : res form :=
  match s with
  | SList (SAtom (TWord w) :: args) =>
      if top && String.eqb w "and" then
        let* fs := mapR (effect c false) args in Ok (mk_and fs)
      else if String.eqb w "forall" then
        match args with
        | [SList vs; x] =>
            let* tl := g_vars c vs in
            let* f := effect c true x in
            let* vars := mk_vars tl in
            Ok (mk_forall vars f)
        | _ => syntax
        end
      else if String.eqb w "when" then
        match args with
        | [x; y] => let* f := gd c x in let* g := cond_effect c y in Ok (mk_when f g)
        | _ => syntax
        end
      else if String.eqb w "oneof" then
        match args with
        | [] => syntax
        | _ =>
            let* fs := mapR (effect c true) args in
            check (has NON_DETERMINISTIC (g_ext c)) (PDDLMissingRequirementError NON_DETERMINISTIC) ;;
            Ok (mk_bin OOneOf fs)
        end
      else p_effect c s
  | _ => p_effect c s
  end.

(** grammar.lark:41-42 emptyor_effect; domain.py:334-339 *)
Definition emptyor_effect (c : gctx) (s : sexp) : res form :=
  match s with SList [] => Ok (mk_or []) | _ => effect c true s end.

(** * The domain transformer: its attributes (domain.py:66-76) *)
Record dstate : Type := mkD {
  s_constants : list (string * const);    (* _constants_by_name *)
  s_predicates : list (string * atom);    (* _predicates_by_name *)
  s_params : list (string * var);         (* _current_parameters_by_name *)
  s_ext : list req;                       (* _extended_requirements *)
  s_types : option types_dict             (* _types *)
}.
(** _functions_by_name is never read; _requirements only feeds _extended_requirements *)
Definition init_dstate : dstate := mkD [] [] [] [] None.

(** a step of the transformer: the attributes are kept when an exception is raised *)
Definition M (A : Type) := dstate -> dstate * res A.
(** a callback that does not touch the attributes *)
Definition ret {A} (r : res A) : M A := fun st => (st, r).
(** callbacks in sequence *)
Definition bindM {A B} (m : M A) (k : A -> M B) : M B :=
  fun st => let '(st', r) := m st in
            match r with Ok a => k a st' | Err e => (st', Err e) end.
Notation "'do' x '<-' m ';' k" := (bindM m (fun x => k))
  (at level 200, x pattern, m at level 100, k at level 200).
(** a callback that reads the attributes *)
Definition reads {A} (f : dstate -> res A) : M A := fun st => (st, f st).
(** a callback that assigns to an attribute *)
Definition modify (f : dstate -> dstate) : M unit := fun st => (f st, Ok tt).
(** callbacks for a repeated rule, from left to right *)
Fixpoint mapM {A B} (f : A -> M B) (l : list A) : M (list B) :=
  match l with
  | [] => ret (Ok [])
  | x :: xs => do y <- f x; do ys <- mapM f xs; ret (Ok (y :: ys))
  end.

(** domain.py:138 self._constants_by_name = v *)
Definition set_constants v st := mkD v (s_predicates st) (s_params st) (s_ext st) (s_types st).
(** domain.py:146 self._predicates_by_name = v *)
Definition set_predicates v st := mkD (s_constants st) v (s_params st) (s_ext st) (s_types st).
(** domain.py:224 self._current_parameters_by_name = v *)
Definition set_params v st := mkD (s_constants st) (s_predicates st) v (s_ext st) (s_types st).
(** domain.py:114 self._extended_requirements = v *)
Definition set_ext v st := mkD (s_constants st) (s_predicates st) (s_params st) v (s_types st).
(** domain.py:104, 132 self._types = v *)
Definition set_types v st := mkD (s_constants st) (s_predicates st) (s_params st) (s_ext st) v.

(** the callbacks of conditions and effects in the current state *)
Definition domain_ctx (st : dstate) : gctx :=
  mkCtx (s_ext st) (s_params st)
        (fun n => match dict_get String.eqb n (s_constants st) with
                  | Some k => Ok (const_term k)
                  | None => Err LarkParseError
                  end)
        typed_list_variable.

(** grammar.lark:158-172 require_key *)
Definition require_key (s : sexp) : option req :=
  match s with
  | SAtom (TKw (String _ v)) =>
      match req_of_value v with
      | Ok OBJECT_FLUENTS => None
      | Ok r => Some r
      | Err _ => None
      end
  | _ => None
  end.
(** grammar.lark:6 requirements: one or more keys *)
Definition require_keys (l : list sexp) : res (list req) :=
  match l with [] => syntax | _ => of_opt (mapO require_key l) end.

(** domain.py:111-116 requirements *)
Definition requirements (l : list sexp) : M (list req) :=
  do rs <- ret (require_keys l);
  do _ <- modify (set_ext (extend_reqs rs));
  ret (Ok (dedup req_eqb rs)).

(** domain.py:118-134 types *)
Definition types_section (l : list sexp) : M types_dict :=
  do d <- ret (typed_list_name l);
  do _ <- reads (fun st =>
            check (negb (existsb (fun kv => match snd kv with Some _ => true | None => false end) d)
                   || has TYPING (s_ext st)) (PDDLMissingRequirementError TYPING));
  let d' := map (fun kv => (fst kv, match snd kv with
                                    | Some p => if String.eqb p "object" then None else Some p
                                    | None => None
                                    end)) d in
  do _ <- reads (fun st => check (match s_types st with None => true | Some _ => false end)
                                 AssertionError);
  do _ <- modify (set_types (Some d'));
  ret (Ok d').

(** a Constant object (terms.py:77-110) as a name and a type tag *)
Definition const_of (t : term) : const :=
  match t with TConst n g => (n, g) | TVar v => (v_name v, None) end.

(** {name: Constant(name, type) for ...} (domain.py:138-140, problem.py:79-81) *)
Definition constants_by_name (l : list (string * option string)) : res (list (string * const)) :=
  let* cs := mapR (fun p => let* k := mk_const (fst p) (snd p) in Ok (fst p, const_of k)) l in
  Ok (dict_of_list String.eqb cs).

(** domain.py:136-141 constants *)
Definition constants_section (l : list sexp) : M (list const) :=
  do d <- ret (typed_list_name l);
  do cs <- ret (constants_by_name d);
  do _ <- modify (set_constants cs);
  ret (Ok (map snd cs)).

(** grammar.lark:13 atomic_formula_skeleton; domain.py:422-434 *)
Definition atomic_formula_skeleton (s : sexp) : res atom :=
  match s with
  | SList (SAtom (TWord n) :: vs) =>
      let* tl := typed_list_variable vs in
      let* vars := mk_vars tl in
      let* p := mk_pred n (map TVar vars) in
      match p with FPred n' ts => Ok (n', ts) | _ => Err TypeError end
  | _ => syntax
  end.

(** domain.py:143-147 predicates *)
Definition predicates_section (l : list sexp) : M (list atom) :=
  do ps <- ret (match l with [] => syntax | _ => mapR atomic_formula_skeleton l end);
  do _ <- modify (set_predicates (dict_of_list String.eqb (map (fun p => (fst p, p)) ps)));
  ret (Ok ps).

(** grammar.lark:20 atomic_function_skeleton; domain.py:436-444 *)
Definition atomic_function_skeleton (s : sexp) : res atom :=
  match s with
  | SList (SAtom (TWord n) :: vs) =>
      let* tl := typed_list_variable vs in
      if String.eqb n "total-cost" then Ok ("total-cost", [])
      else
        let* vars := mk_vars tl in
        let* p := mk_numfun n (map TVar vars) in
        match p with FNumFun n' ts => Ok (n', ts) | _ => Err TypeError end
  | _ => syntax
  end.

(** grammar.lark:15-18 f_typed_list_atomic_function_skeleton *)
Fixpoint tl_functions (seen : bool) (l : list sexp) : res (list (titem atom)) :=
  match l with
  | [] => Ok []
  | SAtom (TOp o) :: SAtom (TWord g) :: r =>
      if String.eqb o "-" && seen && String.eqb g "number" then
        let* ts := tl_functions false r in Ok (ISep :: ITypes [g] :: ts)
      else syntax
  | s :: r =>
      let* f := atomic_function_skeleton s in
      let* ts := tl_functions true r in Ok (IItem f :: ts)
  end.

(** domain.py:498-512: building the error message iterates over the NumericFunction: TypeError *)
Definition functions_section (l : list sexp) : res functions_dict :=
  match l with
  | [] => syntax
  | _ =>
      let* ts := tl_functions false l in
      except_value (let* ix := parse_typed_list atom_eqb (fun f => Ok f) ts false in
                    typed_list_of_names ix) TypeError
  end.

(** domain.py:222-227 action_parameters *)
Definition action_parameters (l : list sexp) : M (list term) :=
  do tl <- ret (typed_list_variable l);
  do vars <- ret (mk_vars tl);
  let d := dict_of_list String.eqb (combine (map fst tl) vars) in
  do _ <- modify (set_params d);
  ret (Ok (map (fun kv => TVar (snd kv)) d)).

(** grammar.lark:25 action_body_def; domain.py:160-164.  An absent part is None, and
    [_children[i][1:]] raises TypeError on it. *)
Definition is_kw (k : string) (s : sexp) : bool :=
  match s with SAtom (TKw k') => String.eqb k k' | _ => false end.
(** grammar.lark:25 action_body_def; domain.py:160-164 *)
Definition action_body (l : list sexp) (st : dstate) : res (form * form) :=
  let c := domain_ctx st in
  match l with
  | [k1; x; k2; y] =>
      if is_kw ":precondition" k1 && is_kw ":effect" k2 then
        let* p := emptyor_pregd c x in
        let* e := emptyor_effect c y in
        Ok (p, e)
      else syntax
  | [k1; x] =>
      if is_kw ":precondition" k1 then let* _ := emptyor_pregd c x in Err TypeError
      else if is_kw ":effect" k1 then let* _ := emptyor_effect c x in Err TypeError
      else syntax
  | [] => Err TypeError
  | _ => syntax
  end.

(** grammar.lark:23 action_def; domain.py:155-165 *)
Definition action_def (l : list sexp) : M action :=
  match l with
  | SAtom (TWord n) :: k :: SList ps :: body =>
      if is_kw ":parameters" k then
        do vars <- action_parameters ps;
        do b <- reads (action_body body);
        ret (mk_action n vars (Some (fst b)) (Some (snd b)))
      else ret syntax
  | _ => ret syntax
  end.

(** domain.py:532-550 _check_subtypes: the while loop for one left type.  [parent] is
    parent_type; current_type is always [left]. *)
Definition subtype_step (types : option types_dict) (left : string) (right : list string)
           (parent : option string) : option string + res unit :=
  match parent with
  | None => inr (Err PDDLParsingError)
  | Some p =>
      if memb String.eqb p right then inr (Ok tt)
      else match types with
           | None => inr (Err RuntimeError)
           | Some d => inl (match dict_get String.eqb left d with Some v => v | None => None end)
           end
  end.
(** the loop repeats the same state from the second round on (Derived_facts2.subtype_loop), so two
    rounds decide; a loop that does not stop then never stops *)
Definition check_subtype (types : option types_dict) (left : string) (right : list string)
  : res unit :=
  match loop (subtype_step types left right) 1 (Some left) with
  | inr r => r
  | inl p => match subtype_step types left right p with inr r => r | inl _ => Err Diverges end
  end.
(** domain.py:532-550 _check_subtypes *)
Definition check_subtypes (types : option types_dict) (left right : list string) : res unit :=
  match right with
  | [] => Ok tt
  | _ => iterR (fun g => check_subtype types g right) left
  end.

(** domain.py:186-216: the mapping from the head's variables to type tags *)
Fixpoint head_types (types : option types_dict) (m : tagmap) (head def : list term)
  : res tagmap :=
  match head, def with
  | t :: head', d :: def' =>
      match t with
      | TConst _ _ => Err AssertionError
      | TVar v =>
          match v_tags v with
          | [] => head_types types
                    (match t_tags d with
                     | [] => m
                     | gs => dict_set String.eqb (v_name v) gs m
                     end) head' def'
          | gs =>
              check_subtypes types gs (t_tags d) ;;
              head_types types (dict_set String.eqb (v_name v) gs m) head' def'
          end
      end
  | _, _ => Ok m
  end.

(** domain.py:167-220 derived_predicates, after its sub-rules *)
Definition derived_callback (st : dstate) (head : atom) (cond : form) : res derived :=
  match dict_get String.eqb (fst head) (s_predicates st) with
  | None => Err LarkParseError
  | Some def =>
      check (Nat.eqb (length (snd def)) (length (snd head))) LarkParseError ;;
      let* m := head_types (s_types st) [] (snd head) (snd def) in
      let* p := update_type_tags m (FPred (fst head) (snd head)) in
      let* cond' := update_type_tags m cond in
      match p with
      | FPred n ts => Ok (mkDerived n ts cond')
      | _ => Err TypeError
      end
  end.
(** grammar.lark:26 derived_predicates *)
Definition derived_def (l : list sexp) : M derived :=
  match l with
  | [h; x] =>
      do head <- ret (atomic_formula_skeleton h);
      do cond <- reads (fun st => gd (domain_ctx st) x);
      reads (fun st => derived_callback st head cond)
  | _ => ret syntax
  end.

(** grammar.lark:22 structure_def *)
Definition structure_def (s : sexp) : M (action + derived) :=
  match s with
  | SList (k :: body) =>
      if is_kw ":action" k then do a <- action_def body; ret (Ok (inl a))
      else if is_kw ":derived" k then do d <- derived_def body; ret (Ok (inr d))
      else ret syntax
  | _ => ret syntax
  end.

(** an optional section: its contents if the next group is that section *)
Definition section (k : string) (l : list sexp) : option (list sexp) * list sexp :=
  match l with
  | SList (k' :: body) :: r => if is_kw k k' then (Some body, r) else (None, l)
  | _ => (None, l)
  end.
(** an optional section of grammar.lark:3 and its callback *)
Definition optM {A} (f : list sexp -> M A) (o : option (list sexp)) : M (option A) :=
  match o with
  | Some l => do a <- f l; ret (Ok (Some a))
  | None => ret (Ok None)
  end.
(** an absent section: the default argument of Domain (core.py:51-63) is an empty collection *)
Definition opt_list {A} (o : option (list A)) : list A := match o with Some l => l | None => [] end.

(** grammar.lark:3 domain; domain.py:89-105 domain *)
Definition domain_rule (n : string) (l0 : list sexp) : M domain :=
  let '(o1, l1) := section ":requirements" l0 in
  do rs <- optM requirements o1;
  let '(o2, l2) := section ":types" l1 in
  do ty <- optM types_section o2;
  let '(o3, l3) := section ":constants" l2 in
  do cs <- optM constants_section o3;
  let '(o4, l4) := section ":predicates" l3 in
  do ps <- optM predicates_section o4;
  let '(o5, l5) := section ":functions" l4 in
  do fs <- optM (fun l => ret (functions_section l)) o5;
  do xs <- mapM structure_def l5;
  let acts := flat_map (fun x => match x with inl a => [a] | inr _ => [] end) xs in
  let dps := flat_map (fun x => match x with inl _ => [] | inr d => [d] end) xs in
  do _ <- modify (set_types None);
  ret (mk_domain n (opt_list rs) ty (opt_list cs) (opt_list ps) dps (opt_list fs) acts).

(** grammar.lark:3-4; parser/base.py:44-48 DomainParser.__call__ *)
Definition parse_domain_sexp (l : list sexp) : M domain :=
  match l with
  | [SList (SAtom (TWord k1) :: SList [SAtom (TWord k2); SAtom (TWord n)] :: secs)] =>
      if String.eqb k1 "define" && String.eqb k2 "domain" then domain_rule n secs else ret syntax
  | _ => ret syntax
  end.
(** parser/base.py:44-69 DomainParser.__call__ *)
Definition parse_domain (s : string) : M domain :=
  match read_text s with
  | Some l => parse_domain_sexp l
  | None => ret syntax
  end.
(** a new DomainParser *)
Definition parse_domain_fresh (s : string) : res domain := snd (parse_domain s init_dstate).

(** * Problems (problem.py).  The inner DomainTransformer keeps its initial attributes. *)

(** problem.py:212-215 constant; the variables of a quantifier are not processed *)
Definition problem_ctx : gctx :=
  mkCtx [] [] (fun n => mk_const n None)
        (fun l => let* _ := of_opt (tl_vars false l) in Ok []).

(** grammar.lark:121-122 basic_function_term; problem.py:131-137 *)
Definition basic_function_term (s : sexp) : res form :=
  match s with
  | SAtom (TWord n) => mk_numfun n []
  | SList (SAtom (TWord n) :: args) =>
      let* ns := of_opt (mapO word args) in
      let* ts := mapR (fun x => mk_const x None) ns in
      mk_numfun n ts
  | _ => syntax
  end.

(** grammar.lark:124 atomic_formula_name; problem.py:148-164 *)
Definition atomic_formula_name (objs : list (string * const)) (s : sexp) : res form :=
  match s with
  | SList (SAtom (TWord n) :: args) =>
      let* ns := of_opt (mapO word args) in
      let* ts := mapR (fun x => match dict_get String.eqb x objs with
                                | Some k => Ok (const_term k)
                                | None => mk_const x None
                                end) ns in
      mk_pred n ts
  | _ => syntax
  end.

(** grammar.lark:115-119 init_el, literal_name; problem.py:109-129 *)
Definition init_el (objs : list (string * const)) (s : sexp) : res form :=
  match s with
  | SList (SAtom (TOp o) :: args) =>
      match args with
      | [f; SAtom (TNum n)] =>
          if String.eqb o "=" then
            let* g := basic_function_term f in
            let* v := num_literal n in
            Ok (mk_binfun BEqual [g; FNumVal v])
          else syntax
      | _ => syntax
      end
  | SList (SAtom (TWord w) :: args) =>
      if String.eqb w "not" then
        match args with
        | [x] => let* f := atomic_formula_name objs x in Ok (mk_not f)
        | _ => syntax
        end
      else atomic_formula_name objs s
  | _ => syntax
  end.

(** grammar.lark:133-137 metric_f_exp; problem.py:187-206.  The number is the raw token. *)
Fixpoint metric_f_exp (s : sexp) : res form :=
  match s with
  | SAtom (TNum n) => Ok (FNumVal (NStr n))
  | SList (SAtom (TOp o) :: args) =>
      match arith_op o (length args) with
      | Some k => let* ops := mapR metric_f_exp args in Ok (mk_binfun k ops)
      | None => syntax
      end
  | _ => basic_function_term s
  end.

(** grammar.lark:128-131 metric_spec; problem.py:178-185 *)
Definition metric_spec (l : list sexp) : res metric :=
  match l with
  | [SAtom (TWord o); e] =>
      if memb String.eqb o ["maximize"; "minimize"] then
        let* f := metric_f_exp e in mk_metric f o
      else syntax
  | _ => syntax
  end.

(** problem.py:76-82 objects *)
Definition objects_section (l : list sexp) : res (list (string * const)) :=
  let* d := typed_list_name l in constants_by_name d.

(** grammar.lark:107-112; problem.py:55-62.  [objs0] is _objects_by_name left by an earlier
    parse. *)
Definition opt_res {A} (f : list sexp -> res A) (o : option (list sexp)) : res (option A) :=
  match o with
  | Some l => let* a := f l in Ok (Some a)
  | None => Ok None
  end.
(** grammar.lark:107 problem; problem.py:55-62, 72-74, 100-107, 139-141 *)
Definition problem_rule (objs0 : list (string * const)) (n dn : string) (l0 : list sexp)
  : res problem :=
  let '(o1, l1) := section ":requirements" l0 in
  let* rs := opt_res require_keys o1 in
  let '(o2, l2) := section ":objects" l1 in
  let* os := opt_res objects_section o2 in
  let objs := match os with Some d => d | None => objs0 end in
  match section ":init" l2 with
  | (Some inits, l3) =>
      let* init := mapR (init_el objs) inits in
      match section ":goal" l3 with
      | (Some [g], l4) =>
          let* goal := gd problem_ctx g in
          let '(o5, l5) := section ":metric" l4 in
          let* m := opt_res metric_spec o5 in
          match l5 with
          | [] =>
              mk_problem n None (Some dn) rs
                         (match os with Some d => map snd d | None => [] end)
                         init (Some goal) m
          | _ => syntax
          end
      | _ => syntax
      end
  | (None, _) => syntax
  end.
(** grammar.lark:107-109 problem, problem_def, problem_domain; problem.py:64-70 *)
Definition parse_problem_sexp (objs0 : list (string * const)) (l : list sexp) : res problem :=
  match l with
  | [SList (SAtom (TWord k1) :: SList [SAtom (TWord k2); SAtom (TWord n)]
            :: SList [k3; SAtom (TWord dn)] :: secs)] =>
      if String.eqb k1 "define" && String.eqb k2 "problem" && is_kw ":domain" k3
      then problem_rule objs0 n dn secs else syntax
  | _ => syntax
  end.
(** parser/base.py:44-69 ProblemParser.__call__ *)
Definition parse_problem_from (objs0 : list (string * const)) (s : string) : res problem :=
  match read_text s with
  | Some l => parse_problem_sexp objs0 l
  | None => syntax
  end.
(** a new ProblemParser (problem.py:44-49) *)
Definition parse_problem (s : string) : res problem := parse_problem_from [] s.

(** * Plans (grammar.lark:147-148; plan.py:31-44) *)
Definition ground_action (s : sexp) : res (string * list const) :=
  match s with
  | SList (SAtom (TWord n) :: args) =>
      let* ns := of_opt (mapO word args) in
      let* ts := mapR (fun x => mk_const x None) ns in
      Ok (n, map const_of ts)
  | _ => syntax
  end.
(** parser/base.py:44-69 PlanParser.__call__; plan.py:41-44 *)
Definition parse_plan (s : string) : res plan :=
  match read_text s with
  | Some l => mapR ground_action l
  | None => syntax
  end.
