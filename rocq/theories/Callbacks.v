(** Model of the callbacks of DomainTransformer (pddl/parser/domain.py), ProblemTransformer
    (problem.py) and PlanTransformer (plan.py), one definition for each method.

    Lark calls [callback n args st] when the rule [n] is complete (Lark.v): [args] are the values of
    its parts, as positional as in the code (args[0] is usually the token "("), and [st] are the
    attributes of the transformer.  Parser.v describes the same computation rule by rule on trees of
    parentheses; that both agree is C72. *)
From Coq Require Import String Ascii List Bool Arith.
From Verif Require Import Py Names Reqs Logic Validation Core TypedList UpdateTags Parser.
Import ListNotations.
Open Scope string_scope.
Open Scope list_scope.

(** * Python values that are passed to callbacks *)
Inductive value : Type :=
| VTok (w : string)                                (* lark.Token, a str *)
| VNone                                            (* None *)
| VTree (n : string) (cs : list value)             (* lark.Tree: the value of a rule without callback *)
| VSplice (l : list value)                         (* the parts of a repetition *)
| VList (l : list value)                           (* list *)
| VKw (k : string) (v : value)                     (* dict(k=v), or the tuple (k, v) *)
| VForm (f : form)                                 (* an object of pddl.logic *)
| VTerm (t : term)                                 (* Constant or Variable *)
| VNum (n : num)                                   (* int, float *)
| VNames (d : list (string * option string))       (* Dict[name, Optional[name]] *)
| VVars (l : list (string * list string))          (* Tuple[Tuple[name, Set[name]], ...] *)
| VFuns (d : functions_dict)                       (* Dict[NumericFunction, Optional[name]] *)
| VReqs (l : list req)                             (* Set[Requirements] *)
| VMetric (m : metric)
| VAction (a : action)
| VDerived (d : derived)
| VStep (n : string) (cs : list const)             (* Tuple[str, List[Constant]] *)
| VDomain (d : domain)
| VProblem (p : problem)
| VPlan (p : plan).

(** the parts of a repetition *)
Definition unsplice (v : value) : list value := match v with VSplice l => l | _ => [] end.

(** args[i] *)
Definition arg (i : nat) (args : list value) : res value :=
  match nth_error args i with Some v => Ok v | None => Err IndexError end.
(** args[2:-1] *)
Definition inner (args : list value) : list value := removelast (skipn 2 args).
(** args[-2] *)
Definition arg_before_last (args : list value) : res value := arg 1 (rev args).

(** [v == w] for a str [w] *)
Definition tok_is (w : string) (v : value) : bool :=
  match v with VTok w' => String.eqb w' w | _ => false end.

(** the attributes that a value must have where it is used.  The grammar lets no other value reach
    these places (this is part of C72). *)
Definition as_str (v : value) : res string := match v with VTok w => Ok w | _ => Err TypeError end.
Definition as_form (v : value) : res form := match v with VForm f => Ok f | _ => Err TypeError end.
Definition as_pred (v : value) : res atom :=
  match v with VForm (FPred n ts) => Ok (n, ts) | _ => Err AttributeError end.
Definition as_term (v : value) : res term := match v with VTerm t => Ok t | _ => Err TypeError end.
Definition as_list (v : value) : res (list value) := match v with VList l => Ok l | _ => Err TypeError end.
Definition as_vars (v : value) : res (list (string * list string)) :=
  match v with VVars l => Ok l | _ => Err TypeError end.
Definition as_names (v : value) : res (list (string * option string)) :=
  match v with VNames d => Ok d | _ => Err AttributeError end.
Definition as_num (v : value) : res num :=
  match v with VNum n => Ok n | VTok w => Ok (NStr w) | _ => Err TypeError end.
Definition as_step (v : value) : res (string * list const) :=
  match v with VStep n cs => Ok (n, cs) | _ => Err TypeError end.
Definition some_form (v : value) : res (option form) := let* f := as_form v in Ok (Some f).

(** * Typed lists *)

(** the tokens given to TypedListParser.parse_typed_list (typed_list_parser.py:113-136): "-" is a
    separator, and what follows it is a list of types, or one type *)
Fixpoint str_items (l : list value) : list (titem string) :=
  match l with
  | [] => []
  | VTok w :: r =>
      if String.eqb w "-" then
        match r with
        | VTok g :: r' => ISep :: ITypes [g] :: str_items r'
        | VList gs :: r' =>
            ISep :: ITypes (flat_map (fun g => match g with VTok w' => [w'] | _ => [] end) gs) :: str_items r'
        | _ => ISep :: str_items r
        end
      else IItem w :: str_items r
  | _ :: r => str_items r
  end.
(** typed_list_parser.py:113-136, for function skeletons *)
Fixpoint fun_items (l : list value) : list (titem atom) :=
  match l with
  | [] => []
  | VTok w :: r =>
      if String.eqb w "-" then
        match r with
        | VTok g :: r' => ISep :: ITypes [g] :: fun_items r'
        | _ => ISep :: fun_items r
        end
      else fun_items r
  | VForm (FNumFun n ts) :: r => IItem (n, ts) :: fun_items r
  | _ :: r => fun_items r
  end.

(** domain.py:475-481 typed_list_name *)
Definition cb_typed_list_name (args : list value) : res value :=
  let* d := except_value (let* ix := parse_typed_list String.eqb parse_name (str_items args) false in
                          typed_list_of_names ix) PDDLParsingError in
  Ok (VNames d).
(** domain.py:483-496 typed_list_variable *)
Definition cb_typed_list_variable (args : list value) : res value :=
  let* l := except_value (let* ix := parse_typed_list String.eqb parse_name (str_items args) true in
                          Ok (typed_list_of_variables ix)) PDDLParsingError in
  Ok (VVars l).
(** domain.py:498-512 f_typed_list_atomic_function_skeleton; the error message iterates over the
    NumericFunction *)
Definition cb_f_typed_list (args : list value) : res value :=
  let* d := except_value (let* ix := parse_typed_list atom_eqb (fun f => Ok f) (fun_items args) false in
                          typed_list_of_names ix) TypeError in
  Ok (VFuns d).
(** domain.py:514-526 type_def *)
Definition cb_type_def (args : list value) : res value :=
  check (negb (Nat.eqb (length args) 0)) AssertionError ;;
  if Nat.eqb (length args) 1 then Ok (VList args)
  else let* e := arg 1 args in
       check (tok_is "either" e) AssertionError ;;
       Ok (VList (inner args)).

(** * Conditions and effects of DomainTransformer.  [ext] is self._extended_requirements, [params]
    self._current_parameters_by_name, [consts] self._constants_by_name. *)

(** domain.py:394-399 _constant_or_variable *)
Definition cb_constant_or_variable (params : list (string * var)) (v : value) : res term :=
  match v with
  | VTerm t => Ok t
  | VTok n => match dict_get String.eqb n params with
              | Some x => Ok (TVar x)
              | None => let* x := mk_var n (CList []) in Ok (TVar x)
              end
  | _ => Err TypeError
  end.
(** domain.py:401-412 atomic_formula_term *)
Definition cb_atomic_formula_term (ext : list req) (params : list (string * var)) (args : list value)
  : res value :=
  let* a1 := arg 1 args in
  if tok_is "=" a1 then
    check (has EQUALITY ext) (PDDLMissingRequirementError EQUALITY) ;;
    let* a2 := arg 2 args in
    let* l := cb_constant_or_variable params a2 in
    let* a3 := arg 3 args in
    let* r := cb_constant_or_variable params a3 in
    let* f := mk_eq l r in Ok (VForm f)
  else
    let* ts := mapR (cb_constant_or_variable params) (inner args) in
    let* n := as_str a1 in
    let* f := mk_pred n ts in Ok (VForm f).
(** domain.py:414-420 constant *)
Definition cb_constant (consts : list (string * const)) (args : list value) : res value :=
  check (Nat.eqb (length args) 1) AssertionError ;;
  let* a := arg 0 args in
  let* n := as_str a in
  match dict_get String.eqb n consts with
  | Some k => Ok (VTerm (const_term k))
  | None => Err LarkParseError
  end.
(** domain.py:329-332 num_literal *)
Definition cb_num_literal (args : list value) : res value :=
  let* a := arg 0 args in let* n := as_str a in let* v := num_literal n in Ok (VNum v).
(** domain.py:446-465 f_exp (the same as problem.py:187-206 metric_f_exp).  The exception of the last
    line is returned, not raised; no operator of the grammar gets there. *)
Definition cb_f_exp (args : list value) : res value :=
  if Nat.eqb (length args) 1 then
    let* a := arg 0 args in
    match a with
    | VForm (FNumFun n ts) => Ok a
    | _ => let* n := as_num a in Ok (VForm (FNumVal n))
    end
  else
    let* a1 := arg 1 args in
    let op := if tok_is "-" a1 then Some BMinus
              else if tok_is "+" a1 then Some BPlus
              else if tok_is "*" a1 then Some BTimes
              else if tok_is "/" a1 then Some BDivide
              else None in
    match op with
    | Some k => let* fs := mapR as_form (inner args) in Ok (VForm (mk_binfun k fs))
    | None => Ok VNone
    end.
(** domain.py:467-473 f_head *)
Definition cb_f_head (params : list (string * var)) (args : list value) : res value :=
  if Nat.eqb (length args) 1 then
    let* a := arg 0 args in let* n := as_str a in let* f := mk_numfun n [] in Ok (VForm f)
  else
    let* a := arg 1 args in
    let* ts := mapR (cb_constant_or_variable params) (inner args) in
    let* n := as_str a in
    let* f := mk_numfun n ts in Ok (VForm f).

(** domain.py:237-246 gd_not (its check does nothing) *)
Definition cb_gd_not (args : list value) : res value :=
  let* a := arg 2 args in let* f := as_form a in Ok (VForm (mk_not f)).
(** domain.py:248-251 gd_and *)
Definition cb_gd_and (args : list value) : res value :=
  let* fs := mapR as_form (inner args) in Ok (VForm (mk_and fs)).
(** domain.py:253-261 gd_or *)
Definition cb_gd_or (ext : list req) (args : list value) : res value :=
  check (any_req [DIS_PRECONDITION; ADL] ext) (PDDLMissingRequirementError DIS_PRECONDITION) ;;
  let* fs := mapR as_form (inner args) in Ok (VForm (mk_or fs)).
(** domain.py:263-270 gd_imply *)
Definition cb_gd_imply (ext : list req) (args : list value) : res value :=
  check (any_req [DIS_PRECONDITION; ADL] ext) (PDDLMissingRequirementError DIS_PRECONDITION) ;;
  let* a := arg 2 args in let* f := as_form a in
  let* b := arg 3 args in let* g := as_form b in
  Ok (VForm (mk_bin OImply [f; g])).
(** domain.py:272-292 gd_quantifiers *)
Definition cb_gd_quantifiers (ext : list req) (args : list value) : res value :=
  let* a1 := arg 1 args in
  let '(r, q) := if tok_is "forall" a1 then (UNIVERSAL_PRECONDITION, QForall)
                 else (EXISTENTIAL_PRECONDITION, QExists) in
  check (any_req [r; QUANTIFIED_PRECONDITION; ADL] ext) (PDDLMissingRequirementError r) ;;
  let* a3 := arg 3 args in let* l := as_vars a3 in
  let* vars := mk_vars l in
  let* a5 := arg 5 args in let* f := as_form a5 in
  Ok (VForm (mk_quant q vars f)).
(** domain.py:294-310 gd_comparison; the check of its first line never fails *)
Definition cb_gd_comparison (args : list value) : res value :=
  let* a2 := arg 2 args in let* f := as_form a2 in
  let* a3 := arg 3 args in let* g := as_form a3 in
  let* a1 := arg 1 args in
  let* k := if tok_is ">=" a1 then Ok BGreaterEq
            else if tok_is ">" a1 then Ok BGreater
            else if tok_is "<=" a1 then Ok BLessEq
            else if tok_is "<" a1 then Ok BLess
            else if tok_is "=" a1 then Ok BEqual
            else Err PDDLParsingError in
  Ok (VForm (mk_binfun k [f; g])).
(** domain.py:312-327 gd *)
Definition cb_gd (ext : list req) (args : list value) : res value :=
  if Nat.eqb (length args) 1 then arg 0 args
  else
    let* a1 := arg 1 args in
    if tok_is "not" a1 then cb_gd_not args
    else if tok_is "and" a1 then cb_gd_and args
    else if tok_is "or" a1 then cb_gd_or ext args
    else if tok_is "imply" a1 then cb_gd_imply ext args
    else if tok_is "forall" a1 || tok_is "exists" a1 then cb_gd_quantifiers ext args
    else if existsb (fun w => tok_is w a1) [">="; ">"; "<="; "<"; "="] then cb_gd_comparison args
    else Ok VNone.
(** domain.py:229-235 emptyor_pregd *)
Definition cb_emptyor_pregd (args : list value) : res value :=
  if Nat.eqb (length args) 2 then Ok (VForm (mk_or []))
  else check (Nat.eqb (length args) 1) AssertionError ;; arg 0 args.

(** domain.py:334-339 emptyor_effect *)
Definition cb_emptyor_effect (args : list value) : res value :=
  if Nat.eqb (length args) 2 then Ok (VForm (mk_or [])) else arg 0 args.
(** domain.py:341-347 effect *)
Definition cb_effect (args : list value) : res value :=
  if Nat.eqb (length args) 1 then arg 0 args
  else
    let* a1 := arg 1 args in
    if tok_is "and" a1 then let* fs := mapR as_form (inner args) in Ok (VForm (mk_and fs))
    else Err ValueError.
(** domain.py:349-362 c_effect *)
Definition cb_c_effect (ext : list req) (args : list value) : res value :=
  if Nat.eqb (length args) 1 then arg 0 args
  else
    let* a1 := arg 1 args in
    if tok_is "forall" a1 then
      let* a3 := arg 3 args in let* l := as_vars a3 in
      let* vars := mk_vars l in
      let* e := arg_before_last args in let* f := as_form e in
      Ok (VForm (mk_forall vars f))
    else if tok_is "when" a1 then
      let* a2 := arg 2 args in let* f := as_form a2 in
      let* a3 := arg 3 args in let* g := as_form a3 in
      Ok (VForm (mk_when f g))
    else if tok_is "oneof" a1 then
      check (has NON_DETERMINISTIC ext) (PDDLMissingRequirementError NON_DETERMINISTIC) ;;
      let* fs := mapR as_form (inner args) in Ok (VForm (mk_bin OOneOf fs))
    else Err ValueError.
(** domain.py:364-369 p_effect *)
Definition cb_p_effect (args : list value) : res value :=
  if Nat.eqb (length args) 1 then arg 0 args
  else let* a2 := arg 2 args in let* f := as_form a2 in Ok (VForm (mk_not f)).
(** domain.py:371-377 cond_effect *)
Definition cb_cond_effect (args : list value) : res value :=
  if Nat.leb 3 (length args) && match nth_error args 1 with Some a1 => tok_is "and" a1 | None => false end then
    let* fs := mapR as_form (inner args) in Ok (VForm (mk_and fs))
  else check (Nat.eqb (length args) 1) AssertionError ;; arg 0 args.
(** domain.py:379-392 num_effect *)
Definition cb_num_effect (args : list value) : res value :=
  let* a1 := arg 1 args in
  let* k := if tok_is "assign" a1 then Ok BAssign
            else if tok_is "scale-up" a1 then Ok BScaleUp
            else if tok_is "scale-down" a1 then Ok BScaleDown
            else if tok_is "increase" a1 then Ok BIncrease
            else if tok_is "decrease" a1 then Ok BDecrease
            else Err PDDLParsingError in
  let* a2 := arg 2 args in let* f := as_form a2 in
  let* a3 := arg 3 args in let* g := as_form a3 in
  Ok (VForm (mk_binfun k [f; g])).

(** * Declarations of DomainTransformer *)

(** domain.py:422-428 _formula_skeleton *)
Definition formula_skeleton (args : list value) : res (list var) :=
  let* a2 := arg 2 args in let* l := as_vars a2 in mk_vars l.
(** domain.py:430-434 atomic_formula_skeleton *)
Definition cb_atomic_formula_skeleton (args : list value) : res value :=
  let* a1 := arg 1 args in
  let* vars := formula_skeleton args in
  let* n := as_str a1 in
  let* f := mk_pred n (map TVar vars) in Ok (VForm f).
(** domain.py:436-444 atomic_function_skeleton; the check of its second line never fails *)
Definition cb_atomic_function_skeleton (args : list value) : res value :=
  let* a1 := arg 1 args in
  if tok_is "total-cost" a1 then let* f := mk_numfun "total-cost" [] in Ok (VForm f)
  else
    let* vars := formula_skeleton args in
    let* n := as_str a1 in
    let* f := mk_numfun n (map TVar vars) in Ok (VForm f).
(** Requirements(r[1:]) (domain.py:113, problem.py:74) *)
Definition requirement (v : value) : res req :=
  let* w := as_str v in
  match w with String _ r => req_of_value r | "" => req_of_value "" end.
(** domain.py:111-116 requirements *)
Definition cb_requirements (args : list value) (st : dstate) : dstate * res value :=
  match mapR requirement (inner args) with
  | Err e => (st, Err e)
  | Ok rs => (set_ext (extend_reqs rs) st, Ok (VKw "requirements" (VReqs (dedup req_eqb rs))))
  end.
(** domain.py:118-134 types *)
Definition cb_types (args : list value) (st : dstate) : dstate * res value :=
  match (let* a2 := arg 2 args in
         let* d := as_names a2 in
         check (negb (existsb (fun kv => match snd kv with Some _ => true | None => false end) d)
                || has TYPING (s_ext st)) (PDDLMissingRequirementError TYPING) ;;
         let d' := map (fun kv => (fst kv, match snd kv with
                                           | Some p => if String.eqb p "object" then None else Some p
                                           | None => None
                                           end)) d in
         check (match s_types st with None => true | Some _ => false end) AssertionError ;;
         Ok d') with
  | Err e => (st, Err e)
  | Ok d => (set_types (Some d) st, Ok (VKw "types" (VNames d)))
  end.
(** domain.py:136-141 constants *)
Definition cb_constants (args : list value) (st : dstate) : dstate * res value :=
  match (let* a2 := arg 2 args in let* d := as_names a2 in constants_by_name d) with
  | Err e => (st, Err e)
  | Ok cs => (set_constants cs st, Ok (VKw "constants" (VList (map (fun c => VTerm (const_term (snd c))) cs))))
  end.
(** domain.py:143-147 predicates *)
Definition cb_predicates (args : list value) (st : dstate) : dstate * res value :=
  match mapR as_pred (inner args) with
  | Err e => (st, Err e)
  | Ok ps => (set_predicates (dict_of_list String.eqb (map (fun p => (fst p, p)) ps)) st,
              Ok (VKw "predicates" (VList (inner args))))
  end.
(** domain.py:149-153 functions *)
Definition cb_functions (args : list value) : res value :=
  let* a2 := arg 2 args in Ok (VKw "functions" a2).
(** domain.py:222-227 action_parameters *)
Definition cb_action_parameters (args : list value) (st : dstate) : dstate * res value :=
  match (let* a1 := arg 1 args in
         let* l := as_vars a1 in
         let* vars := mk_vars l in
         Ok (dict_of_list String.eqb (combine (map fst l) vars))) with
  | Err e => (st, Err e)
  | Ok d => (set_params d st, Ok (VList (map (fun kv => VTerm (TVar (snd kv))) d)))
  end.
(** domain.py:160-164: {_children[i][1:]: _children[i + 1] for i in range(0, len(_children), 2)} *)
Fixpoint body_dict (cs : list value) : res (list (string * value)) :=
  match cs with
  | [] => Ok []
  | VTok k :: v :: r =>
      let* d := body_dict r in
      Ok ((match k with String _ k' => k' | "" => "" end, v) :: d)
  | VTok _ :: [] => Err IndexError
  | _ :: _ => Err TypeError
  end.
(** domain.py:155-165 action_def; Action(name, parameters, precondition=None, effect=None) *)
Definition cb_action_def (args : list value) : res value :=
  let* a2 := arg 2 args in
  let* a4 := arg 4 args in
  let* a5 := arg 5 args in
  let* cs := match a5 with VTree _ cs => Ok cs | _ => Err AttributeError end in
  let* d := body_dict cs in
  let* n := as_str a2 in
  let* l := as_list a4 in
  let* ts := mapR as_term l in
  check (forallb (fun kv => memb String.eqb (fst kv) ["precondition"; "effect"]) d) TypeError ;;
  let* pre := match dict_get String.eqb "precondition" d with Some v => some_form v | None => Ok None end in
  let* eff := match dict_get String.eqb "effect" d with Some v => some_form v | None => Ok None end in
  let* a := mk_action n ts pre eff in Ok (VAction a).
(** domain.py:167-220 derived_predicates *)
Definition cb_derived_predicates (args : list value) (st : dstate) : res value :=
  let* a2 := arg 2 args in let* head := as_pred a2 in
  let* a3 := arg 3 args in let* cond := as_form a3 in
  let* d := derived_callback st head cond in Ok (VDerived d).

(** kwargs[k] *)
Definition kw (k : string) (kws : list (string * value)) : option value :=
  dict_get String.eqb k kws.
(** domain.py:107-109 domain_def *)
Definition cb_domain_def (args : list value) : res value :=
  let* a2 := arg 2 args in Ok (VKw "name" a2).
(** domain.py:94-101: the loop over the sections.  kwargs, actions and derived predicates. *)
Fixpoint sections (args : list value) (kws : list (string * value)) (acts : list action) (dps : list derived)
  : res (list (string * value) * list action * list derived) :=
  match args with
  | [] => Ok (kws, acts, dps)
  | VAction a :: r => sections r kws (acts ++ [a]) dps
  | VDerived d :: r => sections r kws acts (dps ++ [d])
  | VKw k v :: r => sections r (dict_set String.eqb k v kws) acts dps
  | _ :: _ => Err AssertionError
  end.
(** Domain keyword arguments, where given arguments have the right type and absent ones take the
    default value None (core.py:51-63) *)
Definition kw_reqs (o : option value) : res (list req) :=
  match o with Some (VReqs l) => Ok l | None => Ok [] | _ => Err TypeError end.
Definition kw_types (o : option value) : res (option types_dict) :=
  match o with Some (VNames d) => Ok (Some d) | None => Ok None | _ => Err TypeError end.
Definition kw_consts (o : option value) : res (list const) :=
  match o with
  | Some (VList l) => mapR (fun v => let* t := as_term v in Ok (const_of t)) l
  | None => Ok []
  | _ => Err TypeError
  end.
Definition kw_preds (o : option value) : res (list atom) :=
  match o with Some (VList l) => mapR as_pred l | None => Ok [] | _ => Err TypeError end.
Definition kw_funs (o : option value) : res functions_dict :=
  match o with Some (VFuns d) => Ok d | None => Ok [] | _ => Err TypeError end.
Definition kw_str (o : option value) : res string :=
  match o with Some v => as_str v | None => Err TypeError end.
(** [arg for arg in args if arg is not None] (domain.py:91, problem.py:57) *)
Definition not_none (args : list value) : list value :=
  filter (fun v => match v with VNone => false | _ => true end) args.
(** domain.py:89-105 domain *)
Definition cb_domain (args : list value) (st : dstate) : dstate * res value :=
  match sections (inner (not_none args)) [] [] [] with
  | Err e => (st, Err e)
  | Ok (kws, acts, dps) =>
      (set_types None st,
       let* n := kw_str (kw "name" kws) in
       let* rs := kw_reqs (kw "requirements" kws) in
       let* ty := kw_types (kw "types" kws) in
       let* cs := kw_consts (kw "constants" kws) in
       let* ps := kw_preds (kw "predicates" kws) in
       let* fs := kw_funs (kw "functions" kws) in
       let* d := mk_domain n rs ty cs ps dps fs acts in
       Ok (VDomain d))
  end.

(** a method that does not touch the attributes *)
Definition pure {St} (r : res value) (st : St) : St * res value := (st, r).
(** DomainTransformer (domain.py:63-550): the method of a rule; a rule without method gives a Tree *)
Definition domain_callback (n : string) (args : list value) (st : dstate) : dstate * res value :=
  if String.eqb n "domain" then cb_domain args st
  else if String.eqb n "domain_def" then pure (cb_domain_def args) st
  else if String.eqb n "requirements" then cb_requirements args st
  else if String.eqb n "types" then cb_types args st
  else if String.eqb n "constants" then cb_constants args st
  else if String.eqb n "predicates" then cb_predicates args st
  else if String.eqb n "functions" then pure (cb_functions args) st
  else if String.eqb n "action_def" then pure (cb_action_def args) st
  else if String.eqb n "derived_predicates" then pure (cb_derived_predicates args st) st
  else if String.eqb n "action_parameters" then cb_action_parameters args st
  else if String.eqb n "emptyor_pregd" then pure (cb_emptyor_pregd args) st
  else if String.eqb n "gd" then pure (cb_gd (s_ext st) args) st
  else if String.eqb n "num_literal" then pure (cb_num_literal args) st
  else if String.eqb n "emptyor_effect" then pure (cb_emptyor_effect args) st
  else if String.eqb n "effect" then pure (cb_effect args) st
  else if String.eqb n "c_effect" then pure (cb_c_effect (s_ext st) args) st
  else if String.eqb n "p_effect" then pure (cb_p_effect args) st
  else if String.eqb n "cond_effect" then pure (cb_cond_effect args) st
  else if String.eqb n "num_effect" then pure (cb_num_effect args) st
  else if String.eqb n "atomic_formula_term" then pure (cb_atomic_formula_term (s_ext st) (s_params st) args) st
  else if String.eqb n "constant" then pure (cb_constant (s_constants st) args) st
  else if String.eqb n "atomic_formula_skeleton" then pure (cb_atomic_formula_skeleton args) st
  else if String.eqb n "atomic_function_skeleton" then pure (cb_atomic_function_skeleton args) st
  else if String.eqb n "f_exp" then pure (cb_f_exp args) st
  else if String.eqb n "f_head" then pure (cb_f_head (s_params st) args) st
  else if String.eqb n "typed_list_name" then pure (cb_typed_list_name args) st
  else if String.eqb n "typed_list_variable" then pure (cb_typed_list_variable args) st
  else if String.eqb n "f_typed_list_atomic_function_skeleton" then pure (cb_f_typed_list args) st
  else if String.eqb n "type_def" then pure (cb_type_def args) st
  else (st, Ok (VTree n args)).

(** * ProblemTransformer.  Its attributes are _objects_by_name and a DomainTransformer of its own, of
    which only methods that do not change attributes are called: its requirements and parameters stay
    empty (problem.py:41-47). *)

(** problem.py:72-74 requirements *)
Definition pb_requirements (args : list value) : res value :=
  let* rs := mapR requirement (inner args) in Ok (VKw "requirements" (VReqs (dedup req_eqb rs))).
(** problem.py:76-82 objects *)
Definition pb_objects (args : list value) (objs : list (string * const)) : list (string * const) * res value :=
  match (let* a2 := arg 2 args in let* d := as_names a2 in constants_by_name d) with
  | Err e => (objs, Err e)
  | Ok cs => (cs, Ok (VKw "objects" (VList (map (fun c => VTerm (const_term (snd c))) cs))))
  end.
(** problem.py:100-107 init *)
Definition pb_init (args : list value) : res value :=
  Ok (VKw "init" (VList (flat_map (fun v => match v with VList l => l | _ => [v] end) (inner args)))).
(** problem.py:109-119 init_el *)
Definition pb_init_el (args : list value) : res value :=
  if Nat.eqb (length args) 1 then arg 0 args
  else
    let* a1 := arg 1 args in
    if tok_is "=" a1 then
      let* a2 := arg 2 args in
      let* a3 := arg 3 args in
      let* n := as_num a3 in
      match a2 with
      | VList [x] => let* f := as_form x in Ok (VForm (mk_binfun BEqual [f; FNumVal n]))
      | VList l => let* fs := mapR as_form l in
                   Ok (VList (map (fun f => VForm (mk_binfun BEqual [f; FNumVal n])) fs))
      | _ => let* f := as_form a2 in Ok (VForm (mk_binfun BEqual [f; FNumVal n]))
      end
    else Ok VNone.
(** problem.py:121-129 literal_name *)
Definition pb_literal_name (args : list value) : res value :=
  if Nat.eqb (length args) 1 then arg 0 args
  else
    let* a1 := arg 1 args in
    if tok_is "not" a1 then let* a2 := arg 2 args in let* f := as_form a2 in Ok (VForm (mk_not f))
    else Err LarkParseError.
(** problem.py:131-137 basic_function_term *)
Definition pb_basic_function_term (args : list value) : res value :=
  if Nat.eqb (length args) 1 then
    let* a := arg 0 args in let* n := as_str a in let* f := mk_numfun n [] in Ok (VForm f)
  else
    let* a1 := arg 1 args in
    let* ts := mapR (fun v => let* x := as_str v in mk_const x None) (inner args) in
    let* n := as_str a1 in
    let* f := mk_numfun n ts in Ok (VForm f).
(** problem.py:139-141 goal *)
Definition pb_goal (args : list value) : res value := let* a2 := arg 2 args in Ok (VKw "goal" a2).
(** problem.py:148-164 atomic_formula_name.  The grammar has no "=" in this rule; None is not a Term. *)
Definition pb_atomic_formula_name (objs : list (string * const)) (args : list value) : res value :=
  let* a1 := arg 1 args in
  if tok_is "=" a1 then
    let* a2 := arg 2 args in let* w := as_str a2 in
    match dict_get String.eqb "=" objs, dict_get String.eqb w objs with
    | Some l, Some r => let* f := mk_eq (const_term l) (const_term r) in Ok (VForm f)
    | _, _ => Err AttributeError
    end
  else
    let* ts := mapR (fun v => let* x := as_str v in
                              match dict_get String.eqb x objs with
                              | Some k => Ok (const_term k)
                              | None => mk_const x None
                              end) (inner args) in
    let* n := as_str a1 in
    let* f := mk_pred n ts in Ok (VForm f).
(** problem.py:178-185 metric_spec *)
Definition pb_metric_spec (args : list value) : res value :=
  let* a2 := arg 2 args in
  if tok_is "minimize" a2 || tok_is "maximize" a2 then
    let* a3 := arg 3 args in let* f := as_form a3 in let* o := as_str a2 in
    let* m := mk_metric f o in Ok (VKw "metric" (VMetric m))
  else Err PDDLParsingError.
(** problem.py:212-215 constant *)
Definition pb_constant (args : list value) : res value :=
  check (Nat.eqb (length args) 1) AssertionError ;;
  let* a := arg 0 args in let* n := as_str a in
  let* t := mk_const n None in Ok (VTerm t).

(** problem.py:64-70 problem_def, problem_domain *)
Definition pb_problem_def (args : list value) : res value := let* a2 := arg 2 args in Ok (VKw "name" a2).
Definition pb_problem_domain (args : list value) : res value := let* a2 := arg 2 args in Ok (VKw "domain_name" a2).
(** Problem keyword arguments (core.py:197-207) *)
Definition kw_preqs (o : option value) : res (option (list req)) :=
  match o with Some (VReqs l) => Ok (Some l) | None => Ok None | _ => Err TypeError end.
Definition kw_init (o : option value) : res (list form) :=
  match o with Some (VList l) => mapR as_form l | None => Ok [] | _ => Err TypeError end.
Definition kw_goal (o : option value) : res (option form) :=
  match o with Some v => some_form v | None => Ok None end.
Definition kw_metric (o : option value) : res (option metric) :=
  match o with Some (VMetric m) => Ok (Some m) | None => Ok None | _ => Err TypeError end.
(** dict(args): later pairs replace earlier ones *)
Definition as_pair (v : value) : res (string * value) := match v with VKw k x => Ok (k, x) | _ => Err TypeError end.
(** problem.py:55-62 problem *)
Definition pb_problem (args0 : list value) : res value :=
  let args := not_none args0 in
  let* a0 := arg 0 args in let* w0 := as_str a0 in
  let* a1 := arg 1 args in let* w1 := as_str a1 in
  let* z := arg 0 (rev args) in let* wz := as_str z in
  check (String.eqb (w0 +++ w1 +++ wz) "(define)") AssertionError ;;
  let* ps := mapR as_pair (inner args) in
  let kws := dict_of_list String.eqb ps in
  let* n := kw_str (kw "name" kws) in
  let* dn := kw_str (kw "domain_name" kws) in
  let* rs := kw_preqs (kw "requirements" kws) in
  let* os := kw_consts (kw "objects" kws) in
  let* i := kw_init (kw "init" kws) in
  let* g := kw_goal (kw "goal" kws) in
  let* m := kw_metric (kw "metric" kws) in
  let* p := mk_problem n None (Some dn) rs os i g m in
  Ok (VProblem p).

(** ProblemTransformer (problem.py:38-215): the method of a rule *)
Definition problem_callback (n : string) (args : list value) (objs : list (string * const))
  : list (string * const) * res value :=
  if String.eqb n "problem" then pure (pb_problem args) objs
  else if String.eqb n "problem_def" then pure (pb_problem_def args) objs
  else if String.eqb n "problem_domain" then pure (pb_problem_domain args) objs
  else if String.eqb n "requirements" then pure (pb_requirements args) objs
  else if String.eqb n "objects" then pb_objects args objs
  else if String.eqb n "typed_list_name" then pure (cb_typed_list_name args) objs
  else if String.eqb n "init" then pure (pb_init args) objs
  else if String.eqb n "init_el" then pure (pb_init_el args) objs
  else if String.eqb n "literal_name" then pure (pb_literal_name args) objs
  else if String.eqb n "basic_function_term" then pure (pb_basic_function_term args) objs
  else if String.eqb n "goal" then pure (pb_goal args) objs
  else if String.eqb n "gd" then pure (cb_gd [] args) objs
  else if String.eqb n "atomic_formula_name" then pure (pb_atomic_formula_name objs args) objs
  else if String.eqb n "num_literal" then pure (cb_num_literal args) objs
  else if String.eqb n "f_exp" then pure (cb_f_exp args) objs
  else if String.eqb n "f_head" then pure (cb_f_head [] args) objs
  else if String.eqb n "metric_spec" then pure (pb_metric_spec args) objs
  else if String.eqb n "metric_f_exp" then pure (cb_f_exp args) objs
  else if String.eqb n "atomic_formula_term" then pure (cb_atomic_formula_term [] [] args) objs
  else if String.eqb n "constant" then pure (pb_constant args) objs
  else (objs, Ok (VTree n args)).

(** * PlanTransformer *)

(** plan.py:31-39 ground_action *)
Definition pl_ground_action (args : list value) : res value :=
  let* a1 := arg 1 args in
  let params := if Nat.ltb 3 (length args) then inner args else [] in
  let* ts := mapR (fun v => let* x := as_str v in mk_const x None) params in
  let* n := as_str a1 in
  Ok (VStep n (map const_of ts)).
(** plan.py:41-44 plan *)
Definition pl_plan (args : list value) : res value :=
  let* steps := mapR as_step args in Ok (VPlan steps).
(** PlanTransformer (plan.py:24-44): the method of a rule *)
Definition plan_callback (n : string) (args : list value) (st : unit) : unit * res value :=
  if String.eqb n "ground_action" then pure (pl_ground_action args) st
  else if String.eqb n "plan" then pure (pl_plan args) st
  else (st, Ok (VTree n args)).
