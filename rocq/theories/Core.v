(** Model of pddl/core.py: Domain, Problem, Plan (construction, checks, equality).  Printing is
    in Show.v. *)
From Coq Require Import String List Bool.
From Verif Require Import Py Names Reqs Logic Validation.
Import ListNotations.
Open Scope string_scope.
Open Scope list_scope.

(** A Constant: name and optional type tag (terms.py:77-110), compared by name *)
Definition const := (string * option string)%type.
(** a Constant (terms.py:77-110) as a Term *)
Definition const_term (c : const) : term := TConst (fst c) (snd c).
(** terms.py:104-106 Constant.__eq__ *)
Definition const_eqb (a b : const) : bool := String.eqb (fst a) (fst b).

(** * Domain (core.py:48-191) *)
Record domain : Type := mkDomain {
  d_name : string;
  d_reqs : list req;              (* frozenset *)
  d_types : types_dict;
  d_constants : list const;       (* frozenset *)
  d_predicates : list atom;       (* frozenset of Predicate *)
  d_derived : list derived;       (* frozenset *)
  d_functions : functions_dict;
  d_actions : list action         (* frozenset *)
}.

(** core.py:89-105 _check_consistency, _check_types_in_derived_predicates *)
Definition domain_check_consistency (d : domain) : res unit :=
  check_terms (d_types d) (d_reqs d) (map const_term (d_constants d)) ;;
  iterR (fun p => check_terms (d_types d) (d_reqs d) (snd p)) (d_predicates d) ;;
  iterR (check_action (d_types d) (d_reqs d)) (d_actions d) ;;
  check_has_terms (d_types d) (map a_params (d_actions d)) ;;
  check_has_terms (d_types d) (map dp_terms (d_derived d)).

(** core.py:51-87 Domain.__init__; the collections are the constructor's arguments *)
Definition mk_domain (n : string) (rs : list req) (types : option types_dict)
           (cs : list const) (ps : list atom) (dps : list derived) (fs : functions_dict)
           (acts : list action) : res domain :=
  let* n' := parse_name n in
  let rs' := dedup req_eqb rs in
  let* types' := mk_types types rs' false in
  check_total_cost fs rs' ;;
  let d := mkDomain n' rs' types' (dedup const_eqb cs) (dedup atom_eqb ps)
                    (dedup derived_eqb dps) fs (dedup action_eqb acts) in
  domain_check_consistency d ;; Ok d.

(** core.py:147-159: [==] of the types, two dicts *)
Definition types_eqb (a b : types_dict) : bool :=
  dict_eqb String.eqb (option_eqb String.eqb) a b.
(** core.py:147-159: [==] of the functions, two dicts *)
Definition functions_eqb (a b : functions_dict) : bool :=
  dict_eqb atom_eqb (option_eqb String.eqb) a b.

(** core.py:147-159 Domain.__eq__ *)
Definition domain_eqb (a b : domain) : bool :=
  String.eqb (d_name a) (d_name b)
  && set_eqb req_eqb (d_reqs a) (d_reqs b)
  && types_eqb (d_types a) (d_types b)
  && set_eqb const_eqb (d_constants a) (d_constants b)
  && set_eqb atom_eqb (d_predicates a) (d_predicates b)
  && functions_eqb (d_functions a) (d_functions b)
  && set_eqb derived_eqb (d_derived a) (d_derived b)
  && set_eqb action_eqb (d_actions a) (d_actions b).

(** * Problem (core.py:194-392) *)
Record problem : Type := mkProblem {
  p_name : string;
  p_domain : option domain;          (* _domain *)
  p_domain_name : string;            (* _domain_name *)
  p_reqs : option (list req);        (* _requirements *)
  p_objects : list const;
  p_init : list form;
  p_goal : form;
  p_metric : option metric
}.

(** core.py:326-333 domain_name *)
Definition get_domain_name (p : problem) : string :=
  match p_domain p with Some d => d_name d | None => p_domain_name p end.
(** core.py:335-341 requirements *)
Definition get_requirements (p : problem) : list req :=
  match p_domain p with
  | Some d => d_reqs d
  | None => match p_reqs p with Some r => r | None => [] end
  end.
(** core.py:313-317 domain (getter) *)
Definition get_domain (p : problem) : res domain :=
  match p_domain p with Some d => Ok d | None => Err AssertionError end.

(** core.py:240-261 _parse_domain_and_domain_name *)
Definition parse_domain_and_name (d : option domain) (dn : option string)
  : res (option domain * string) :=
  match d, dn with
  | Some d, Some n =>
      check (String.eqb (d_name d) n) ValueError ;;
      let* n' := parse_name n in Ok (Some d, n')
  | Some d, None => Ok (Some d, d_name d)
  | None, Some n => let* n' := parse_name n in Ok (None, n')
  | None, None => Err ValueError
  end.

(** core.py:263-285 _parse_requirements *)
Definition parse_requirements (d : option domain) (rs : option (list req))
  : res (option (list req)) :=
  match rs, d with
  | None, None => Ok None
  | None, Some d => Ok (Some (d_reqs d))
  | Some rs, None => Ok (Some (dedup req_eqb rs))
  | Some rs, Some d =>
      check (set_eqb req_eqb (dedup req_eqb rs) (d_reqs d)) ValueError ;; Ok (Some (d_reqs d))
  end.

(** core.py:292-306 Problem.check *)
Definition problem_check (p : problem) (d : domain) : res unit :=
  check (String.eqb (lower (get_domain_name p)) (lower (d_name d))) PDDLValidationError ;;
  check (match p_reqs p with None => true | Some rs => subset req_eqb rs (d_reqs d) end)
        PDDLValidationError ;;
  let* types := mk_types (Some (d_types d)) (d_reqs d) true in
  check_terms types (d_reqs d) (map const_term (p_objects p)) ;;
  iterR (check_form types (d_reqs d)) (p_init p) ;;
  check_form types (d_reqs d) (p_goal p).

(** core.py:287-290 _check_consistency *)
Definition problem_check_consistency (p : problem) : res unit :=
  match p_domain p with Some d => problem_check p d | None => Ok tt end.

(** core.py:197-238 Problem.__init__ *)
Definition mk_problem (n : string) (d : option domain) (dn : option string)
           (rs : option (list req)) (objs : list const) (init : list form)
           (goal : option form) (m : option metric) : res problem :=
  let* n' := parse_name n in
  let* dd := parse_domain_and_name d dn in
  let* rs' := parse_requirements d rs in
  let init' := dedup form_eqb init in
  let p := mkProblem n' (fst dd) (snd dd) rs' (dedup const_eqb objs) init'
                     (match goal with Some g => g | None => mk_and [] end) m in
  check (forallb is_literal init') PDDLValidationError ;;
  problem_check_consistency p ;; Ok p.

(** core.py:319-324 domain setter: the fields are assigned before the check, so the new state
    is kept even when the check raises *)
Definition set_domain (p : problem) (d : domain) : problem * res unit :=
  let p' := mkProblem (p_name p) (Some d) (d_name d) (p_reqs p) (p_objects p) (p_init p)
                      (p_goal p) (p_metric p) in
  (p', problem_check_consistency p').

(** core.py:363-375 Problem.__eq__ *)
Definition problem_eqb (a b : problem) : bool :=
  String.eqb (p_name a) (p_name b)
  && option_eqb domain_eqb (p_domain a) (p_domain b)
  && String.eqb (get_domain_name a) (get_domain_name b)
  && set_eqb req_eqb (get_requirements a) (get_requirements b)
  && set_eqb const_eqb (p_objects a) (p_objects b)
  && set_eqb form_eqb (p_init a) (p_init b)
  && form_eqb (p_goal a) (p_goal b)
  && option_eqb metric_eqb (p_metric a) (p_metric b).

(** * Plan (core.py:395-459) *)
Definition plan := list (string * list const).

(** {action.name: action for action in domain.actions} (core.py:413, 425) *)
Definition name_to_schema (d : domain) : list (string * action) :=
  dict_of_list String.eqb (map (fun a => (a_name a, a)) (d_actions d)).

(** core.py:411-421 Plan.instantiate *)
Definition plan_instantiate (pl : plan) (d : domain) : res (list action) :=
  mapR (fun st =>
          match dict_get String.eqb (fst st) (name_to_schema d) with
          | None => Err ValueError
          | Some a => action_instantiate a (map const_term (snd st))
          end) pl.

(** core.py:423-441 Plan.check *)
Definition plan_check_step (d : domain) (p : problem) (st : string * list const) : res unit :=
  let all_objects := union const_eqb (p_objects p) (d_constants d) in
  check (memb String.eqb (fst st) (map a_name (d_actions d))) PDDLValidationError ;;
  match dict_get String.eqb (fst st) (name_to_schema d) with
  | None => Err KeyError
  | Some a =>
      check (Nat.eqb (length (snd st)) (length (a_params a))) PDDLValidationError ;;
      check (forallb (fun c => memb const_eqb c all_objects) (snd st)) PDDLValidationError
  end.
(** core.py:423-441 Plan.check *)
Definition plan_check (pl : plan) (d : domain) (p : problem) : res unit :=
  iterR (plan_check_step d p) pl.

(** core.py:450-452 Plan.__eq__ *)
Definition plan_eqb (a b : plan) : bool :=
  list_eqb (fun x y => String.eqb (fst x) (fst y) && list_eqb const_eqb (snd x) (snd y)) a b.
