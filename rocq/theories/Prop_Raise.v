(** C54: which exceptions parsing raises. *)
From Coq Require Import String List Bool.
From Verif Require Import Py Names Reqs Logic Validation Core Lexer TypedList UpdateTags Parser Prop_Derived.
From Verif Require Import Raise_facts RaiseParse_facts.
Import ListNotations.
Open Scope string_scope.
Open Scope list_scope.

(** A text that a new domain parser does not accept makes it raise one of eight exceptions (PDDLMissingRequirementError with one of six requirements), or it never
    returns; each of these happens.  (KeyError, IndexError, AttributeError, AssertionError and
    NotImplementedError do not.) *)
Theorem C54_domain : forall e,
  (exists s, parse_domain_fresh s = Err e) <->
  In e [LarkSyntaxError; LarkParseError;
        PDDLParsingError; PDDLValidationError;
        PDDLMissingRequirementError TYPING; PDDLMissingRequirementError EQUALITY;
        PDDLMissingRequirementError DIS_PRECONDITION;
        PDDLMissingRequirementError EXISTENTIAL_PRECONDITION;
        PDDLMissingRequirementError UNIVERSAL_PRECONDITION;
        PDDLMissingRequirementError NON_DETERMINISTIC;
        ValueError; TypeError; RuntimeError;
        Diverges].
Proof.
  intros e. split.
  - intros (s & H). pose proof (parse_domain_within domainE s init_dstate (fun _ => id) (or_introl eq_refl) e H) as K.
    cbn in *. tauto.
  - cbn [In]. intros H. decompose [or] H; subst; try contradiction; clear H.
    + exists "(define (domain d) (:predicates))". vm_compute. reflexivity.
    + exists "(define (domain d) (:predicates (p ?x))
        (:action a :parameters () :precondition (p c) :effect (and)))". vm_compute. reflexivity.
    + exists "(define (domain d) (:constants c c))". vm_compute. reflexivity.
    + exists "(define (domain d) (:predicates (define)))". vm_compute. reflexivity.
    + exists "(define (domain d) (:types t - u))". vm_compute. reflexivity.
    + exists "(define (domain d) (:predicates (p))
        (:action a :parameters () :precondition (forall (?x) (= ?x ?x)) :effect (and)))". vm_compute. reflexivity.
    + exists "(define (domain d) (:predicates (p))
        (:action a :parameters () :precondition (or (p) (p)) :effect (and)))". vm_compute. reflexivity.
    + exists "(define (domain d) (:predicates (p))
        (:action a :parameters () :precondition (exists (?x) (p)) :effect (and)))". vm_compute. reflexivity.
    + exists "(define (domain d) (:predicates (p))
        (:action a :parameters () :precondition (forall (?x) (p)) :effect (and)))". vm_compute. reflexivity.
    + exists "(define (domain d) (:predicates (p))
        (:action a :parameters () :precondition (p) :effect (oneof (p) (not (p)))))". vm_compute. reflexivity.
    + exists "(define (domain d) (:requirements :typing) (:types t u) (:predicates (p ?x ?y))
        (:action a :parameters (?x - t) :precondition (forall (?x - u) (> 1.2.3 1)) :effect (and)))". vm_compute. reflexivity.
    + exists "(define (domain d) (:predicates (p)) (:action a :parameters () :precondition (p)))". vm_compute. reflexivity.
    + exists "(define (domain d) (:predicates (p ?x - t)) (:derived (p ?x - u) (p ?x)))". vm_compute. reflexivity.
    + exists C28_text. vm_compute. reflexivity.
Qed.
Print Assumptions C54_domain.

(** A parser that has been used before can also fail with an AssertionError, never with another one. *)
Theorem C54_used_domain_parser : forall e,
  (exists s st, snd (parse_domain s st) = Err e) <->
  e = AssertionError \/ exists s, parse_domain_fresh s = Err e.
Proof.
  intros e. rewrite C54_domain. split.
  - intros (s & st & H).
    pose proof (parse_domain_within (AssertionError :: domainE) s st (incl_tl _ (incl_refl _)) (or_intror (or_introl eq_refl)) e H) as K.
    cbn in *. intuition.
  - intros [->|H].
    + exists "(define (domain d) (:types a))", (fst (parse_domain "(define (domain d) (:types a) (:predicates))" init_dstate)).
      vm_compute. reflexivity.
    + rewrite <- C54_domain in H. destruct H as (s & H). exists s, init_dstate. exact H.
Qed.
Print Assumptions C54_used_domain_parser.

(** The problem parser, new or used, always returns or raises one of five exceptions (PDDLMissingRequirementError with one of
    four requirements). *)
Theorem C54_problem : forall e,
  (exists s, parse_problem s = Err e) <->
  In e [LarkSyntaxError; PDDLParsingError; PDDLValidationError; ValueError;
        PDDLMissingRequirementError EQUALITY; PDDLMissingRequirementError DIS_PRECONDITION;
        PDDLMissingRequirementError EXISTENTIAL_PRECONDITION;
        PDDLMissingRequirementError UNIVERSAL_PRECONDITION].
Proof.
  intros e. split.
  - intros (s & H). pose proof (parse_problem_within [] s e H) as K. cbn in *. tauto.
  - cbn [In]. intros H. decompose [or] H; subst; try contradiction; clear H.
    + exists "(define (problem p))". vm_compute. reflexivity.
    + exists "(define (problem p) (:domain d) (:objects a a) (:init) (:goal (and)))". vm_compute. reflexivity.
    + exists "(define (problem p) (:domain d) (:init (define)) (:goal (and)))". vm_compute. reflexivity.
    + exists "(define (problem p) (:domain d) (:init (= f 1.2.3)) (:goal (and)))". vm_compute. reflexivity.
    + exists "(define (problem p) (:domain d) (:init) (:goal (forall (?x) (= ?x ?x))))". vm_compute. reflexivity.
    + exists "(define (problem p) (:domain d) (:init) (:goal (or (q))))". vm_compute. reflexivity.
    + exists "(define (problem p) (:domain d) (:init) (:goal (exists (?x) (q))))". vm_compute. reflexivity.
    + exists "(define (problem p) (:domain d) (:init) (:goal (forall (?x) (q))))". vm_compute. reflexivity.
Qed.
Print Assumptions C54_problem.
Theorem C54_used_problem_parser : forall objs s e, parse_problem_from objs s = Err e ->
  exists s', parse_problem s' = Err e.
Proof. intros objs s e H. apply C54_problem. pose proof (parse_problem_within objs s e H) as K. cbn in *. tauto. Qed.
Print Assumptions C54_used_problem_parser.

(** The plan parser always returns or raises one of two. *)
Theorem C54_plan : forall e,
  (exists s, parse_plan s = Err e) <-> In e [LarkSyntaxError; PDDLValidationError].
Proof.
  intros e. split.
  - intros (s & H). pose proof (parse_plan_within s e H) as K. cbn in *. tauto.
  - cbn [In]. intros H. decompose [or] H; subst; try contradiction; clear H.
    + exists "(move a". vm_compute. reflexivity.
    + exists "(move and)". vm_compute. reflexivity.
Qed.
Print Assumptions C54_plan.
