(** C70: renaming the names of a text or an object consistently changes nothing else. *)
From Coq Require Import String Ascii List Bool.
From Verif Require Import Py Names Reqs Logic Validation Core Lexer Parser.
From Verif Require Import Spec_Rename Py_facts Rename_facts RenameText_facts RenameParse_facts RenameAll_facts.
Import ListNotations.
Open Scope string_scope.
Open Scope list_scope.

(** a domain text with its names replaced is accepted exactly if the text is, fails with the same
    exception otherwise, and gives the domain with its names replaced *)
Theorem C70_domain : forall r s, renaming r ->
  parse_domain_fresh (rename_text r s) = rmap (ren_domain r) (parse_domain_fresh s).
Proof. intros r s R. now apply parse_domain_fresh_nat. Qed.
Print Assumptions C70_domain.

Theorem C70_problem : forall r s, renaming r ->
  parse_problem (rename_text r s) = rmap (ren_problem r) (parse_problem s).
Proof. intros r s R. now apply parse_problem_nat. Qed.
Print Assumptions C70_problem.

Theorem C70_plan : forall r s, renaming r ->
  parse_plan (rename_text r s) = rmap (ren_plan r) (parse_plan s).
Proof. intros r s R. now apply parse_plan_nat. Qed.
Print Assumptions C70_plan.

(** so do the constructors *)
Theorem C70_constructors : forall r, renaming r ->
  (forall n g, mk_const (r n) (option_map r g) = rmap (ren_term r) (mk_const n g))
  /\ (forall n c, mk_var (r n) (ren_coll r c) = rmap (ren_var r) (mk_var n c))
  /\ (forall n ts, mk_pred (r n) (map (ren_term r) ts) = rmap (ren_form r) (mk_pred n ts))
  /\ (forall a b, mk_eq (ren_term r a) (ren_term r b) = rmap (ren_form r) (mk_eq a b))
  /\ (forall n ts, mk_numfun (r n) (map (ren_term r) ts) = rmap (ren_form r) (mk_numfun n ts))
  /\ (forall c l, mk_op c (map (ren_form r) l) = ren_form r (mk_op c l))
  /\ (forall q vs f, mk_quant q (map (ren_var r) vs) (ren_form r f) = ren_form r (mk_quant q vs f))
  /\ (forall vs f, mk_forall (map (ren_var r) vs) (ren_form r f) = ren_form r (mk_forall vs f))
  /\ (forall n ps p e, mk_action (r n) (map (ren_term r) ps) (option_map (ren_form r) p) (option_map (ren_form r) e)
        = rmap (ren_action r) (mk_action n ps p e))
  /\ (forall d rs sk, mk_types (option_map (ren_types r) d) rs sk = rmap (ren_types r) (mk_types d rs sk))
  /\ (forall n rs ty cs ps dps fs acts,
        mk_domain (r n) rs (option_map (ren_types r) ty) (map (ren_const r) cs) (map (ren_atom r) ps)
          (map (ren_derived r) dps) (ren_functions r fs) (map (ren_action r) acts)
        = rmap (ren_domain r) (mk_domain n rs ty cs ps dps fs acts))
  /\ (forall n d dn rs objs init goal m,
        mk_problem (r n) (option_map (ren_domain r) d) (option_map r dn) rs (map (ren_const r) objs)
          (map (ren_form r) init) (option_map (ren_form r) goal) (option_map (ren_metric r) m)
        = rmap (ren_problem r) (mk_problem n d dn rs objs init goal m)).
Proof.
  intros r R.
  split; [now apply mk_const_nat|]. split; [now apply mk_var_nat|]. split; [now apply mk_pred_nat|].
  split; [now apply mk_eq_nat|]. split; [now apply mk_numfun_nat|]. split; [now apply mk_op_nat|].
  split; [now apply mk_quant_nat|]. split; [now apply mk_forall_nat|]. split; [now apply mk_action_nat|].
  split; [now apply mk_types_nat|]. split; [now apply mk_domain_nat|]. now apply mk_problem_nat.
Qed.
Print Assumptions C70_constructors.

(** two objects are equal exactly if the renamed objects are *)
Theorem C70_equal : forall r, renaming r ->
  (forall f g, form_eqb (ren_form r f) (ren_form r g) = form_eqb f g)
  /\ (forall a b, action_eqb (ren_action r a) (ren_action r b) = action_eqb a b)
  /\ (forall a b, derived_eqb (ren_derived r a) (ren_derived r b) = derived_eqb a b)
  /\ (forall a b, domain_eqb (ren_domain r a) (ren_domain r b) = domain_eqb a b)
  /\ (forall a b, problem_eqb (ren_problem r a) (ren_problem r b) = problem_eqb a b).
Proof.
  intros r R. split; [now apply form_eqb_nat|]. split; [now apply action_eqb_nat|]. split; [now apply derived_eqb_nat|].
  split; [now apply domain_eqb_nat|]. now apply problem_eqb_nat.
Qed.
Print Assumptions C70_equal.

(** the operations on the objects: instantiating, checking, giving a problem its domain *)
Definition ren_outcome {A B} (f : A -> B) (x : A * res unit) : B * res unit := (f (fst x), snd x).
Theorem C70_operations : forall r, renaming r ->
  (forall a ts, action_instantiate (ren_action r a) (map (ren_term r) ts) = rmap (ren_action r) (action_instantiate a ts))
  /\ (forall pl d, plan_instantiate (ren_plan r pl) (ren_domain r d) = rmap (map (ren_action r)) (plan_instantiate pl d))
  /\ (forall pl d p, plan_check (ren_plan r pl) (ren_domain r d) (ren_problem r p) = plan_check pl d p)
  /\ (forall p d, set_domain (ren_problem r p) (ren_domain r d) = ren_outcome (ren_problem r) (set_domain p d))
  /\ (forall p d, respects_case r (get_domain_name p) (d_name d) ->
        problem_check (ren_problem r p) (ren_domain r d) = problem_check p d).
Proof.
  intros r R. split; [now apply action_instantiate_nat|]. split; [now apply plan_instantiate_nat|].
  split; [now apply plan_check_nat|]. split; [now apply set_domain_nat|]. intros. now apply problem_check_nat.
Qed.
Print Assumptions C70_operations.

(** there are such renamings: any two names without a meaning in PDDL can be exchanged *)
Theorem C70_exchange : forall x y, name_regex x = true -> name_regex y = true ->
  ~ In x ("number" :: all_symbols) -> ~ In y ("number" :: all_symbols) -> renaming (swap x y).
Proof.
  intros x y X Y NX NY. unfold swap. constructor.
  - intros a b. destruct (String.eqb_spec a x), (String.eqb_spec b x), (String.eqb_spec a y), (String.eqb_spec b y); congruence.
  - intros a. destruct (String.eqb a x); auto. destruct (String.eqb a y); auto.
  - intros a E. destruct (String.eqb_spec a x); [congruence|]. destruct (String.eqb_spec a y); [congruence|reflexivity].
  - intros a E. destruct (String.eqb_spec a x); [congruence|]. destruct (String.eqb_spec a y); [congruence|reflexivity].
Qed.
Print Assumptions C70_exchange.

(** ** a domain with [wet] and [dry] exchanged *)
Definition weather : string :=
  "(define (domain d) (:requirements :typing) (:types place) ; wet places
    (:predicates (wet ?dry - place) (dry ?x - place))
    (:action wet-it :parameters (?wet - place) :precondition (dry ?wet) :effect (and (not (dry ?wet)) (wet ?wet))))".
Example weather_renamed : rename_text (swap "wet" "dry") weather =
  "(define (domain d) (:requirements :typing) (:types place) ; wet places
    (:predicates (dry ?wet - place) (wet ?x - place))
    (:action wet-it :parameters (?dry - place) :precondition (wet ?dry) :effect (and (not (wet ?dry)) (dry ?dry))))".
Proof. vm_compute. reflexivity. Qed.
Example weather_read : exists d, parse_domain_fresh weather = Ok d
  /\ map fst (d_predicates d) = ["wet"; "dry"]
  /\ exists d', parse_domain_fresh (rename_text (swap "wet" "dry") weather) = Ok d' /\ map fst (d_predicates d') = ["dry"; "wet"]
  /\ domain_eqb d d' = false /\ d' = ren_domain (swap "wet" "dry") d.
Proof.
  eexists. split; [vm_compute; reflexivity|]. split; [reflexivity|]. eexists. split; [vm_compute; reflexivity|].
  split; [reflexivity|]. split; reflexivity.
Qed.
(** a problem may call its domain [D] when the domain is called [d]; exchanging [D] with another name
    breaks that *)
Example case_matters :
  respects_case (swap "wet" "dry") "D" "d" /\ ~ respects_case (swap "D" "other") "D" "d".
Proof. split; [split; reflexivity|]. intros [_ H]. discriminate (H eq_refl). Qed.
