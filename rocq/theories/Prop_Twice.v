(** C52: formatting is idempotent: formatting the formatter's output changes nothing. *)
From Coq Require Import String List Bool Arith.
From Verif Require Import Py Names Reqs Logic Built Validation Core Lexer Show Parser.
From Verif Require Import Spec Spec_Core Spec_Parse Spec_Print Spec_Domain Spec_Problem Spec_Format.
From Verif Require Import Py_facts CoreEq_facts Format_facts FormatDomain_facts Twice_facts TwiceProblem_facts Prop_Format.
Import ListNotations.
Open Scope string_scope.
Open Scope list_scope.

(** Parse a file and print what was read: the text obtained is accepted, and parsing and printing
    it gives the very same text again.  For the files of C49, i.e. those whose contents the library
    can write back ([writable_domain], [writable_problem] in Spec_Format.v). *)
Theorem C52_domains_partial : forall s d, parse_domain_fresh s = Ok d -> writable_domain d ->
  exists s' q, show_domain d = Ok s' /\ parse_domain_fresh s' = Ok q /\ show_domain q = Ok s'.
Proof.
  intros s d H W. destruct (parsed_domain_expressible s d H W) as (B & E & N).
  destruct (domain_text d B E N) as (s' & q & H1 & H2 & _ & H3). eauto.
Qed.
Print Assumptions C52_domains_partial.

Theorem C52_problems_partial : forall s p, parse_problem s = Ok p -> writable_problem p ->
  exists q, parse_problem (show_problem p) = Ok q /\ show_problem q = show_problem p.
Proof.
  intros s p H W. destruct (parsed_problem_expressible s p H W) as (R & _ & E). now apply problem_text.
Qed.
Print Assumptions C52_problems_partial.

(** Whenever there is a second run on a problem, it changes nothing: the text printed for a problem
    file is either rejected or a fixed point. *)
Theorem C52_problems : forall s p q, parse_problem s = Ok p -> parse_problem (show_problem p) = Ok q -> show_problem q = show_problem p.
Proof.
  intros s p q P Q. destruct (C52_problems_partial s p P (printed_writable s p q P Q)) as (q' & Q' & E). congruence.
Qed.
Print Assumptions C52_problems.

(** Likewise for the objects of C32 and C33, however they were built (also with a domain set). *)
Theorem C52_built_domains : forall d, domain_built d -> expressible_domain d -> NoDupE atom_eqb (map fst (d_functions d)) ->
  exists s q, show_domain d = Ok s /\ parse_domain_fresh s = Ok q /\ show_domain q = Ok s.
Proof. intros d B E N. destruct (domain_text d B E N) as (s' & q & H1 & H2 & _ & H3). eauto. Qed.
Print Assumptions C52_built_domains.
Theorem C52_built_problems : forall p, problem_reach p -> expressible_problem p ->
  exists q, parse_problem (show_problem p) = Ok q /\ show_problem q = show_problem p.
Proof. exact problem_text. Qed.
Print Assumptions C52_built_problems.

(** False of the code for the other files: an accepted file may be printed as a text that is not
    accepted, so that there is no second run; *)
Theorem C52_refuted : exists s d s' e, parse_domain_fresh s = Ok d /\ show_domain d = Ok s' /\ parse_domain_fresh s' = Err e.
Proof.
  destruct (parse_domain_fresh (dom "(:types t u)")) as [d|] eqn:E; [|vm_compute in E; discriminate].
  assert (D : d = mkDomain "d" [] [("t", None); ("u", None)] [] [] [] [] []) by (vm_compute in E; now injection E as <-).
  destruct (show_domain d) as [s'|] eqn:X; [|rewrite D in X; vm_compute in X; discriminate].
  exists (dom "(:types t u)"), d, s', (PDDLMissingRequirementError TYPING). split; auto. split; auto.
  rewrite D in X. vm_compute in X. injection X as <-. vm_compute. reflexivity.
Qed.
Print Assumptions C52_refuted.
(** and a domain may be printed as an accepted text that the second run changes.  Here two derived
    predicates differ in the type that a variable got from the action in front of them (C27); they
    have the same text, so that the second run finds only one. *)
Definition twice_text : string := "(define (domain d) (:requirements :typing :derived-predicates) (:types a b) (:predicates (p) (r ?x))
  (:action m1 :parameters (?y - a) :precondition (p) :effect (p)) (:derived (p) (r ?y))
  (:action m2 :parameters (?y - b) :precondition (p) :effect (p)) (:derived (p) (r ?y)))".
Theorem C52_domains_refuted : exists s d s' q s'', parse_domain_fresh s = Ok d /\ show_domain d = Ok s' /\
  parse_domain_fresh s' = Ok q /\ show_domain q = Ok s'' /\ s'' <> s'.
Proof.
  destruct (parse_domain_fresh twice_text) as [d|] eqn:E; [|vm_compute in E; discriminate].
  destruct (show_domain d) as [s'|] eqn:X; [|vm_compute in E; injection E as <-; vm_compute in X; discriminate].
  destruct (parse_domain_fresh s') as [q|] eqn:Q; [|vm_compute in E; injection E as <-; vm_compute in X; injection X as <-; vm_compute in Q; discriminate].
  destruct (show_domain q) as [s''|] eqn:Y.
  - exists twice_text, d, s', q, s''. split; auto. split; auto. split; auto. split; auto.
    vm_compute in E; injection E as <-; vm_compute in X; injection X as <-; vm_compute in Q; injection Q as <-; vm_compute in Y; injection Y as <-. discriminate.
  - vm_compute in E; injection E as <-; vm_compute in X; injection X as <-; vm_compute in Q; injection Q as <-; vm_compute in Y; discriminate.
Qed.
Print Assumptions C52_domains_refuted.

(** ** Examples: the files of C49; the formatter does change the file the first time. *)
Example C52_domain_ex : exists d s' q, parse_domain_fresh block_text = Ok d /\ writable_domain d
  /\ show_domain d = Ok s' /\ s' <> block_text /\ parse_domain_fresh s' = Ok q /\ show_domain q = Ok s'.
Proof.
  destruct C49_domain_ex as (d & s' & q & H & W & _ & _ & S' & N & Q & _). exists d, s', q.
  repeat (split; [assumption|]). destruct (C52_domains_partial _ _ H W) as (s2 & q2 & S2 & Q2 & X). congruence.
Qed.
Example C52_problem_ex : exists p q, parse_problem p01_text = Ok p /\ writable_problem p
  /\ show_problem p <> p01_text /\ parse_problem (show_problem p) = Ok q /\ show_problem q = show_problem p.
Proof.
  destruct C49_problem_ex as (p & q & H & W & Q & _). exists p, q.
  repeat (split; [assumption|]). split.
  - vm_compute in H. injection H as <-. vm_compute. discriminate.
  - split; auto. destruct (C52_problems_partial _ _ H W) as (q2 & Q2 & X). congruence.
Qed.
(** a metric number that is no numeral is printed as it was written *)
Example C52_dots_ex : exists p q, parse_problem (prob "(:goal (q)) (:metric minimize (+ (f) 1.2.3))") = Ok p
  /\ parse_problem (show_problem p) = Ok q /\ show_problem q = show_problem p.
Proof.
  destruct (parse_problem (prob "(:goal (q)) (:metric minimize (+ (f) 1.2.3))")) as [p|] eqn:E; [|vm_compute in E; discriminate].
  destruct (parse_problem (show_problem p)) as [q|] eqn:Q; [|vm_compute in E; injection E as <-; vm_compute in Q; discriminate].
  exists p, q. split; auto. split; auto. eapply C52_problems; eauto.
Qed.
