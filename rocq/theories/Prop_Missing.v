(** C73: the requirement a PDDLMissingRequirementError names is really missing. *)
From Coq Require Import String List Bool.
From Verif Require Import Py Names Reqs Logic Validation Core Lexer TypedList UpdateTags Parser.
From Verif Require Import Spec_Reqs Spec_Parse Spec_Features Missing_facts Prop_Raise.
Import ListNotations.
Open Scope string_scope.
Open Scope list_scope.

(** The full property also says that declaring the named requirement makes the error go away; for
    problems that is false (C73_problem_declaring, C73_problem_refuted). *)

(** For a domain text: the error names the first of some requirements one of which a section of the
    text needs, and none of these is declared or implied by what is declared. *)
Theorem C73_domain_partial : forall s q, parse_domain_fresh s = Err (PDDLMissingRequirementError q) ->
  exists n declared rest x rs,
    domain_text s n (declared_sx declared ++ rest)
    /\ In x rest /\ section_needs x (q :: rs)
    /\ forall r, In r (q :: rs) -> ~ in_force declared r.
Proof.
  intros s q H. destruct (domain_named _ _ H) as (n & d & rest & x & rs & T & I & N & U).
  exists n, d, rest, x, rs. split; auto. split; auto. split; auto. intros r R F. apply U. exists r. auto.
Qed.
Print Assumptions C73_domain_partial.

(** A requirement that is declared, or implied by one that is, is not named. *)
Theorem C73_declared_partial : forall s n declared rest q,
  domain_text s n (declared_sx declared ++ rest) -> in_force declared q ->
  parse_domain_fresh s <> Err (PDDLMissingRequirementError q).
Proof.
  intros s n d rest q T F H. destruct d as [|a d]; [|eapply domain_undeclared; eauto; discriminate].
  destruct F as [[]|(r & [] & _)].
Qed.
Print Assumptions C73_declared_partial.

(** Declaring :adl and :non-deterministic is enough: nothing is missing any more. *)
Theorem C73_enough_partial : forall s n declared rest q,
  domain_text s n (declared_sx declared ++ rest) -> In ADL declared -> In NON_DETERMINISTIC declared ->
  parse_domain_fresh s <> Err (PDDLMissingRequirementError q).
Proof.
  intros s n d rest q T A N H.
  assert (F : in_force d q).
  { assert (E : exists s, parse_domain_fresh s = Err (PDDLMissingRequirementError q)) by eauto.
    apply C54_domain in E. cbn in E.
    repeat (destruct E as [E|E]; [try discriminate; injection E as <-|]); try destruct E;
      try (right; exists ADL; split; [exact A|cbn; tauto]). now left. }
  exact (C73_declared_partial _ _ _ _ _ T F H).
Qed.
Print Assumptions C73_enough_partial.

(** For a problem text: the error names the first of some requirements one of which the goal needs. *)
Theorem C73_problem_partial : forall s q, parse_problem s = Err (PDDLMissingRequirementError q) ->
  exists n d sections g rs, problem_text s n d sections
    /\ In (section_sx ":goal" [g]) sections /\ cond_needs g (q :: rs).
Proof. exact problem_named. Qed.
Print Assumptions C73_problem_partial.

(** But what the problem declares makes no difference: a text with the same sections that declares
    other requirements, the named one included, is rejected with the same error. *)
Theorem C73_problem_declaring : forall s s' n n' d d' declared declared' rest q,
  other_sections rest -> ~ In OBJECT_FLUENTS declared' ->
  problem_text s n d (declared_sx declared ++ rest) ->
  problem_text s' n' d' (declared_sx declared' ++ rest) ->
  parse_problem s = Err (PDDLMissingRequirementError q) ->
  parse_problem s' = Err (PDDLMissingRequirementError q).
Proof. exact problem_same. Qed.
Print Assumptions C73_problem_declaring.

Definition eq_problem (rs : string) : string :=
  "(define (problem p) (:domain d) " +++ rs +++ "(:objects a b) (:init (p a)) (:goal (and (p a) (= a b))))".
Theorem C73_problem_refuted : exists s n d declared rest q,
  problem_text s n d (declared_sx declared ++ rest) /\ In q declared
  /\ parse_problem s = Err (PDDLMissingRequirementError q).
Proof.
  exists (eq_problem "(:requirements :equality :adl)"), "p", "d", [EQUALITY; ADL]. eexists. exists EQUALITY.
  split; [vm_compute; reflexivity|]. split; [now left|vm_compute; reflexivity].
Qed.
Print Assumptions C73_problem_refuted.

(** ** the hypotheses are met *)
Definition missing_domain (rs : string) : string :=
  "(define (domain d) " +++ rs +++ "(:types t - u u) (:predicates (p ?x - t))
     (:action a :parameters (?x - t)
        :precondition (forall (?y - t) (imply (p ?y) (not (= ?x ?y))))
        :effect (oneof (p ?x) (when (exists (?y - t) (p ?y)) (not (p ?x))))))".
Example C73_witness :
  parse_domain_fresh (missing_domain "") = Err (PDDLMissingRequirementError TYPING)
  /\ parse_domain_fresh (missing_domain "(:requirements :typing)") = Err (PDDLMissingRequirementError EQUALITY)
  /\ parse_domain_fresh (missing_domain "(:requirements :typing :equality)")
     = Err (PDDLMissingRequirementError DIS_PRECONDITION)
  /\ parse_domain_fresh (missing_domain "(:requirements :typing :equality :disjunctive-preconditions)")
     = Err (PDDLMissingRequirementError UNIVERSAL_PRECONDITION)
  /\ parse_domain_fresh (missing_domain "(:requirements :typing :equality :disjunctive-preconditions :universal-preconditions)")
     = Err (PDDLMissingRequirementError EXISTENTIAL_PRECONDITION)
  /\ parse_domain_fresh (missing_domain "(:requirements :adl)") = Err (PDDLMissingRequirementError NON_DETERMINISTIC)
  /\ (exists d, parse_domain_fresh (missing_domain "(:requirements :typing :adl :non-deterministic)") = Ok d)
  /\ exists rest, domain_text (missing_domain "(:requirements :typing :adl :non-deterministic)") "d"
                    (declared_sx [TYPING; ADL; NON_DETERMINISTIC] ++ rest) /\ other_sections rest.
Proof.
  do 6 (split; [vm_compute; reflexivity|]). split; [eexists; vm_compute; reflexivity|].
  eexists. split; [vm_compute; reflexivity|]. intros b H. simpl in H. decompose [or] H; try discriminate. contradiction.
Qed.
Example C73_problem_witness :
  parse_problem (eq_problem "") = Err (PDDLMissingRequirementError EQUALITY)
  /\ exists rest, other_sections rest
     /\ problem_text (eq_problem "") "p" "d" (declared_sx [] ++ rest)
     /\ problem_text (eq_problem "(:requirements :equality)") "p" "d" (declared_sx [EQUALITY] ++ rest).
Proof.
  split; [vm_compute; reflexivity|]. eexists. split; [|split; vm_compute; reflexivity].
  intros b H. simpl in H. decompose [or] H; try discriminate. contradiction.
Qed.
