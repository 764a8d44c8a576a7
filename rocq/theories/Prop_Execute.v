(** C83: equal and reformatted domains and problems have the same solutions. *)
From Coq Require Import String List Bool ZArith QArith Lia.
From Verif Require Import Py Names Reqs Logic Built Validation Core Lexer Show Parser Sem.
From Verif Require Import Spec Spec_Core Spec_Effect Spec_Format Spec_Execute.
From Verif Require Import Py_facts Names_facts CoreEq_facts Core_facts Equal_facts Execute_facts Format_facts FormatDomain_facts Main_facts Prop_Format.
Import ListNotations.
Open Scope string_scope.
Open Scope list_scope.
Close Scope Q_scope.

(** Equal domains, problems and plans: the plan leads from the same initial states to the goal,
    however changes are carried out. *)
Theorem C83_equal : forall next d d' p p' pl pl' I,
  domain_eqb d d' = true -> problem_eqb p p' = true -> plan_eqb pl pl' = true ->
  (solves next d p I pl <-> solves next d' p' I pl').
Proof.
  intros next d d' p p' pl pl' I D P L. apply domain_parts in D. apply problem_parts in P.
  split; apply solves_equal; auto using dsame_sym, psame_sym. now rewrite (eqv_sym _ plan_eqb_equiv).
Qed.
Print Assumptions C83_equal.

(** A file that is formatted, i.e. parsed and printed, has the same solutions as before, and its
    objects the same types, under the conditions of C49. *)
Theorem C83_formatted_partial : forall sd sp d p, parse_domain_fresh sd = Ok d -> parse_problem sp = Ok p ->
  writable_domain d -> writable_problem p ->
  exists sd' d' p', show_domain d = Ok sd' /\ parse_domain_fresh sd' = Ok d'
    /\ parse_problem (show_problem p) = Ok p'
    /\ forall next I pl, (typed d p I /\ solves next d p I pl) <-> (typed d' p' I /\ solves next d' p' I pl).
Proof.
  intros sd sp d p Ed Ep Wd Wp.
  destruct (C49_domains_partial sd d Ed Wd) as (sd' & d' & S & R & E & C).
  destruct (C49_problems_partial sp p Ep Wp) as (p' & R' & E' & C').
  exists sd', d', p'. split; auto. split; auto. split; auto. intros next I pl.
  assert (T : forall k v, In (k, v) (d_types d') <-> In (k, v) (d_types d)).
  { destruct (parsed_domain_expressible sd d Ed Wd) as (B & _).
    apply parsed_built in R.
    apply equal_types; [apply (domain_built_types _ R)|apply (domain_built_types _ B)|].
    unfold domain_eqb in E. do 5 apply andb_true_iff in E as [E _]. now apply andb_true_iff in E as [_ E]. }
  assert (Y : forall o g, type_of (d_types d) o g <-> type_of (d_types d') o g).
  { intros o g. split; induction 1; try constructor; (eapply ty_super; [apply T; eassumption|auto]). }
  assert (Z : typed d p I <-> typed d' p' I).
  { unfold typed. setoid_rewrite C. setoid_rewrite C'. setoid_rewrite Y. reflexivity. }
  rewrite Z. assert (PL : plan_eqb pl pl = true) by apply (eqv_refl _ plan_eqb_equiv).
  rewrite (C83_equal next d' d p' p pl pl I E E' PL). reflexivity.
Qed.
Print Assumptions C83_formatted_partial.
(** the domain and the problem of C49's examples *)
Example C83_ex : exists d p, parse_domain_fresh block_text = Ok d /\ parse_problem p01_text = Ok p
  /\ writable_domain d /\ writable_problem p.
Proof.
  destruct C49_domain_ex as (d & _ & _ & E & W & _). destruct C49_problem_ex as (p & _ & F & V & _). exists d, p. auto.
Qed.
