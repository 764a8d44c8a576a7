(** C49: a formatter, i.e. parsing a file and printing the result, keeps what the file declares. *)
From Coq Require Import String List Bool Arith ZArith QArith Lia.
From Verif Require Import Py Names Reqs Logic Built Validation Core Lexer Show Parser.
From Verif Require Import Spec Spec_Core Spec_Parse Spec_Print Spec_Numbers Spec_Domain Spec_Problem Spec_Format.
From Verif Require Import Py_facts Names_facts CoreEq_facts Format_facts FormatDomain_facts TwiceProblem_facts Prop_Domain Prop_Problem.
Import ListNotations.
Open Scope string_scope.
Open Scope list_scope.

(** Every accepted domain text whose contents meet [writable_domain] (Spec_Format.v) is printed,
    and the new text is accepted and read to an equal domain, whose constants have the same types.
    [writable_domain] asks for: no types without :typing, no supertype that is not declared; at most
    one type for a variable of a function, an action or a quantifier; arithmetic without repeated or
    nested operands that the constructors would drop; no [()] effect, and [()] as a precondition
    only with :disjunctive-preconditions; derived predicates declared once, with distinct variables
    that keep their types in the condition. *)
Theorem C49_domains_partial : forall s d, parse_domain_fresh s = Ok d -> writable_domain d ->
  exists s' q, show_domain d = Ok s' /\ parse_domain_fresh s' = Ok q /\ domain_eqb q d = true
    /\ (forall c, In c (d_constants q) <-> In c (d_constants d)).
Proof.
  intros s d H W. destruct (parsed_domain_expressible s d H W) as (B & E & N). now apply C33_domains_partial.
Qed.
Print Assumptions C49_domains_partial.

(** Likewise for problems; only the arithmetic of the goal and of the metric is restricted. *)
Theorem C49_problems_partial : forall s p, parse_problem s = Ok p -> writable_problem p ->
  exists q, parse_problem (show_problem p) = Ok q /\ problem_eqb q p = true
    /\ (forall c, In c (p_objects q) <-> In c (p_objects p)).
Proof.
  intros s p H W. destruct (parsed_problem_expressible s p H W) as (R & D & E).
  destruct (C32_problems_partial p R E D) as (q & Q & X). exists q. split; auto. split; auto.
  destruct (C32_objects p R E) as (q' & Q' & Y). rewrite Q in Q'. injection Q' as <-. exact Y.
Qed.
Print Assumptions C49_problems_partial.
(** and for no other problems: the text printed for the rest is rejected *)
Theorem C49_problems_exact : forall s p, parse_problem s = Ok p ->
  (writable_problem p <-> exists q, parse_problem (show_problem p) = Ok q).
Proof.
  intros s p H. split; [|intros (q & Q); eapply printed_writable; eauto].
  intros W. destruct (C49_problems_partial s p H W) as (q & Q & _). eauto.
Qed.
Print Assumptions C49_problems_exact.

(** Without these conditions the property is false of the code: each text is accepted, but the
    printed text is rejected or declares something else. *)
Definition reformat_domain (s : string) : res outcome := let* d := parse_domain_fresh s in roundtrip d.
Definition reformat_problem (s : string) : res outcome :=
  let* p := parse_problem s in
  Ok (match parse_problem (show_problem p) with
      | Ok q => if problem_eqb q p then Equal else Different
      | Err e => Rejected e
      end).
Definition dom (s : string) : string := "(define (domain d) " +++ s +++ ")".
Definition act (pre eff : string) : string :=
  "(:predicates (q)) (:functions (f)) (:action a :parameters () :precondition " +++ pre +++ " :effect " +++ eff +++ ")".
Definition prob (s : string) : string := "(define (problem p) (:domain d) (:init) " +++ s +++ ")".
Definition lossy_domains : list (string * outcome) :=
  [ (* types without :typing *)
    (dom "(:types t u)", Rejected (PDDLMissingRequirementError TYPING));
    (* a supertype that is not declared *)
    (dom "(:requirements :typing) (:types t - u)", Different);
    (* a parameter of two types *)
    (dom "(:requirements :typing) (:types t u) (:predicates (q)) (:action a :parameters (?x - (either t u)) :precondition (q) :effect (q))",
     Rejected LarkSyntaxError);
    (* a function over two types *)
    (dom "(:requirements :typing :numeric-fluents) (:types t u) (:functions (f ?x - (either t u)))", Different);
    (* a sum of equal operands *)
    (dom ("(:requirements :numeric-fluents) " +++ act "(< (+ (f) (f)) 1)" "(q)"), Rejected LarkSyntaxError);
    (* an empty precondition, an empty effect *)
    (dom ("(:requirements :numeric-fluents) " +++ act "()" "(q)"), Rejected (PDDLMissingRequirementError DIS_PRECONDITION));
    (dom ("(:requirements :numeric-fluents) " +++ act "(q)" "()"), Rejected PDDLValidationError) ].
Definition lossy_problems : list (string * outcome) :=
  [ (prob "(:goal (<= (* (f) (f)) 1))", Rejected LarkSyntaxError);
    (prob "(:goal (q)) (:metric minimize (/ (f) (/ (f) (f))))", Rejected LarkSyntaxError) ].
Theorem C49_refuted :
  Forall (fun x => reformat_domain (fst x) = Ok (snd x)) lossy_domains
  /\ Forall (fun x => reformat_problem (fst x) = Ok (snd x)) lossy_problems.
Proof. split; repeat apply Forall_cons; try apply Forall_nil; vm_compute; reflexivity. Qed.
Print Assumptions C49_refuted.

(** ** Examples *)
Definition block_text : string := "; blocks, with a comment
(define (domain blocks)
  (:requirements :typing :adl :numeric-fluents :derived-predicates)
  (:types block - object small - block)
  (:constants table - block k)
  (:predicates (on ?x - block ?y - (either small block)) (clear ?x - block) (q))
  (:functions (weight ?x - block) (speed) - number)
  (:derived (clear ?b) (not (exists (?u - block) (on ?u ?b))))
  (:action down :parameters (?b - block)
    :precondition (and (clear ?b) (not (on ?b table)) (>= (weight ?b) (+ 1.5 (speed))))
    :effect (and (on ?b table) (forall (?x - block) (when (on ?b ?x) (not (on ?b ?x)))) (decrease (weight ?b) 1))))".
Ltac in_tac := let X := fresh "X" in intros X; cbn in X; intuition discriminate.
Example C49_domain_ex : exists d s' q, parse_domain_fresh block_text = Ok d /\ writable_domain d
  /\ length (d_actions d) = 1 /\ length (d_derived d) = 1
  /\ show_domain d = Ok s' /\ s' <> block_text /\ parse_domain_fresh s' = Ok q /\ domain_eqb q d = true.
Proof.
  destruct (parse_domain_fresh block_text) as [d|] eqn:E; [|vm_compute in E; discriminate].
  assert (W : writable_domain d).
  { vm_compute in E. injection E as <-. constructor; cbn [d_types d_reqs d_functions d_derived d_actions].
    - intros t p X. cbn in X. destruct X as [X|[X|[]]]; inversion X; subst; cbn; tauto.
    - intros _. unfold typing_on. cbn. tauto.
    - intros f v [<-|[<-|[]]]; cbn; [intros [X|[]]; injection X as <-|intros []]; unfold one_type; cbn; auto.
    - intros x [<-|[]]. split; [repeat constructor; intros []|]. split; [intros us ws; cbn; intuition congruence|].
      split; [cbn; repeat constructor|]. split.
      + intros vs X. destruct vs as [|v [|]]; try discriminate. injection X as <-.
        cbn. repeat (apply Forall_cons || apply Forall_nil); intros g; cbn; tauto.
      + intros v g A X. cbn in X. destruct X as [X|[X|[]]]; inversion X; subst.
        inversion A as [| | | | | |? A1| | | |]; subst. inversion A1 as [| | | | | | |? ? ? A2| | |]; subst.
        inversion A2 as [? ? A3| | | | | | | | | |]; subst. destruct A3 as [A3|[A3|[]]]; injection A3 as <-; discriminate.
    - intros a [<-|[]]. split; [|split].
      + intros v [X|[]]. injection X as <-. unfold one_type. cbn. auto.
      + intros p X. injection X as <-. split; [cbn; repeat split; lia|discriminate].
      + intros e X. injection X as <-. split; [cbn; repeat constructor|discriminate]. }
  destruct (C49_domains_partial _ _ E W) as (s' & q & S1 & S2 & S3 & _). exists d, s', q.
  vm_compute in E. injection E as E. split; auto. split; auto. split; [now rewrite <- E|]. split; [now rewrite <- E|].
  split; auto. split; auto. rewrite <- E in S1. vm_compute in S1. injection S1 as <-. vm_compute. discriminate.
Qed.

Definition p01_text : string := "(define (problem p01) ; a problem
  (:domain blocks)(:objects a b - block t)
  (:init (on a b) (not (clear b)) (= (weight a) 12.5) )
  (:goal (and (on b a) (not (ready)) (<= (weight b) (+ (weight a) 3))))
  (:metric minimize (* 2.5 (weight a))))".
Example C49_problem_ex : exists p q, parse_problem p01_text = Ok p /\ writable_problem p
  /\ parse_problem (show_problem p) = Ok q /\ problem_eqb q p = true /\ length (p_objects q) = 3.
Proof.
  destruct (parse_problem p01_text) as [p|] eqn:E; [|vm_compute in E; discriminate].
  assert (W : writable_problem p).
  { vm_compute in E. injection E as <-. split; [cbn; repeat constructor|].
    intros m X. injection X as <-. cbn. repeat constructor. }
  destruct (C49_problems_partial _ _ E W) as (q & Q & B & _). exists p, q. split; auto. split; auto. split; auto. split; auto.
  vm_compute in E. injection E as <-. vm_compute in Q. now injection Q as <-.
Qed.
