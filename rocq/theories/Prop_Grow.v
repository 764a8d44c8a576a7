(** C62: declaring more requirements never breaks anything. *)
From Coq Require Import String List Bool.
From Verif Require Import Py Names Reqs Logic Validation Core Lexer TypedList UpdateTags Parser.
From Verif Require Import Spec_Reqs Spec_Parse Spec_Features Spec_Grow Grow_facts.
Import ListNotations.
Open Scope string_scope.
Open Scope list_scope.

(** of two texts that differ only in that the second declares more, the second is accepted if the
    first is, and gives the same domain but for the requirements.  [:object-fluents] is not a
    word of the grammar, so no text declares it. *)
Theorem C62_text : forall s s' n declared declared' rest d,
  other_sections rest -> ~ In OBJECT_FLUENTS declared' -> incl declared declared' ->
  domain_text s n (declared_sx declared ++ rest) -> domain_text s' n (declared_sx declared' ++ rest) ->
  parse_domain_fresh s = Ok d ->
  exists d', parse_domain_fresh s' = Ok d' /\ (forall r, In r (d_reqs d') <-> In r declared') /\
             same_but_requirements d d'.
Proof. exact parse_domain_grow. Qed.
Print Assumptions C62_text.

(** the same for Domain(...) *)
Theorem C62_constructor : forall n declared declared' types constants predicates derived functions actions d,
  incl declared declared' ->
  mk_domain n declared types constants predicates derived functions actions = Ok d ->
  exists d', mk_domain n declared' types constants predicates derived functions actions = Ok d' /\
             (forall r, In r (d_reqs d') <-> In r declared') /\ same_but_requirements d d'.
Proof. exact mk_domain_grow_reqs. Qed.
Print Assumptions C62_constructor.

(** a problem that fits the domain fits the one that declares more *)
Theorem C62_problem : forall p d d', same_but_requirements d d' -> incl (d_reqs d) (d_reqs d') ->
  problem_check p d = Ok tt -> problem_check p d' = Ok tt.
Proof. exact problem_check_grow. Qed.
Print Assumptions C62_problem.

(** and can be built with it *)
Theorem C62_new_problem : forall n d d' objects init goal metric p,
  same_but_requirements d d' -> incl (d_reqs d) (d_reqs d') ->
  mk_problem n (Some d) None None objects init goal metric = Ok p ->
  exists p', mk_problem n (Some d') None None objects init goal metric = Ok p' /\
             p_objects p' = p_objects p /\ p_init p' = p_init p /\ p_goal p' = p_goal p /\ p_metric p' = p_metric p.
Proof. exact mk_problem_grow. Qed.
Print Assumptions C62_new_problem.

(** the check of a plan does not look at requirements *)
Theorem C62_plan : forall plan p d d', same_but_requirements d d' -> plan_check plan d' p = plan_check plan d p.
Proof. exact plan_check_grow. Qed.
Print Assumptions C62_plan.

(** the hypotheses are met *)
Definition domain_with (reqs : string) : string :=
  "(define (domain d) " ++ reqs ++
  "(:types t) (:constants c - t) (:predicates (p ?x - t))
   (:action a :parameters (?x - t) :precondition (or (p ?x) (p c)) :effect (not (p ?x))))".
Example C62_witness :
  exists rest,
    other_sections rest /\
    domain_text (domain_with "(:requirements :typing :disjunctive-preconditions)") "d" (declared_sx [TYPING; DIS_PRECONDITION] ++ rest) /\
    domain_text (domain_with "(:requirements :adl :typing :disjunctive-preconditions)") "d" (declared_sx [ADL; TYPING; DIS_PRECONDITION] ++ rest) /\
    (match parse_domain_fresh (domain_with "(:requirements :typing :disjunctive-preconditions)") with Ok _ => true | _ => false end) = true /\
    parse_domain_fresh (domain_with "(:requirements :typing)") = Err (PDDLMissingRequirementError DIS_PRECONDITION).
Proof.
  exists (match read_text (domain_with "") with Some [SList (_ :: _ :: l)] => l | _ => [] end).
  split; [|repeat split; vm_compute; reflexivity].
  unfold other_sections. intros b H. vm_compute in H. repeat destruct H as [H|H]; try discriminate; contradiction.
Qed.
(** a domain, the same with more requirements, and a problem *)
Example C62_problem_witness :
  exists d d' p, mk_domain "d" [TYPING] (Some [("t", None)]) [("c", Some "t")] [] [] [] [] = Ok d /\
    mk_domain "d" [TYPING; ADL] (Some [("t", None)]) [("c", Some "t")] [] [] [] [] = Ok d' /\
    same_but_requirements d d' /\ incl (d_reqs d) (d_reqs d') /\
    mk_problem "p" (Some d) None None [("o", Some "t")] [] None None = Ok p /\ problem_check p d = Ok tt.
Proof.
  do 3 eexists. split; [vm_compute; reflexivity|]. split; [vm_compute; reflexivity|]. split; [repeat split|].
  split; [intros r [<-|[]]; cbn; auto|]. split; vm_compute; reflexivity.
Qed.
