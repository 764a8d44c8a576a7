(** C83, C85: a task built in Python and written to files. *)
From Coq Require Import String List Bool ZArith QArith Permutation.
From Verif Require Import Py Names Reqs Logic Built Validation Core Lexer Show Parser Sem.
From Verif Require Import Spec Spec_Core Spec_Effect Spec_Problem Spec_Domain Spec_Execute.
From Verif Require Import Py_facts Names_facts CoreEq_facts Core_facts Equal_facts Execute_facts ProblemText_facts Main_facts Format_facts FormatDomain_facts.
From Verif Require Import Prop_Domain Prop_Problem Prop_Plan Prop_Execute.
Import ListNotations.
Open Scope string_scope.
Open Scope list_scope.
Close Scope Q_scope.

(** A domain and a problem built with the constructors are printed and read back by a planner, which
    prints a plan that is read with the plan parser: the plan solves the task read from the files
    exactly when it solves the task that was built.  The conditions on the domain and the problem are
    those of C32 and C33. *)
Theorem C83_printed_partial : forall d p, domain_built d -> expressible_domain d -> NoDupE atom_eqb (map fst (d_functions d)) ->
  problem_reach p -> expressible_problem p ->
  exists sd d' p', show_domain d = Ok sd /\ parse_domain_fresh sd = Ok d' /\ parse_problem (show_problem p) = Ok p'
    /\ forall pl, (forall n cs, In (n, cs) pl -> identifier n /\ forall c, In c cs -> legal_name (fst c)) ->
       exists pl', parse_plan (show_plan pl) = Ok pl'
       /\ forall next I, (typed d' p' I /\ solves next d' p' I pl) <-> (typed d p I /\ solves next d p I pl').
Proof.
  intros d p B E N R Ep. destruct (C33_domains_partial d B E N) as (sd & d' & S & Rd & Eq & C).
  destruct (parse_shown_problem p R Ep) as (p' & Rp & K). exists sd, d', p'. split; auto. split; auto. split; auto. intros pl L.
  destruct (C30_roundtrip pl L) as (pl' & Rl & El). exists pl'. split; auto. intros next I.
  assert (T : forall k v, In (k, v) (d_types d') <-> In (k, v) (d_types d)).
  { apply parsed_built in Rd. apply equal_types; [apply (domain_built_types _ Rd)|apply (domain_built_types _ B)|].
    unfold domain_eqb in Eq. do 5 apply andb_true_iff in Eq as [Eq _]. now apply andb_true_iff in Eq as [_ Eq]. }
  assert (Y : forall o g, type_of (d_types d) o g <-> type_of (d_types d') o g).
  { intros o g. split; induction 1; try constructor; (eapply ty_super; [apply T; eassumption|auto]). }
  assert (O : forall c, In c (p_objects p') <-> In c (p_objects p)).
  { intros c. pose proof (rb_objects _ _ K) as P. split; intros H; [apply (Permutation_in _ P H)|apply (Permutation_in _ (Permutation_sym P) H)]. }
  assert (Z : typed d p I <-> typed d' p' I).
  { unfold typed. setoid_rewrite C. setoid_rewrite O. setoid_rewrite Y. reflexivity. }
  rewrite Z. assert (Ps : psame p' p) by (split; [apply (rb_init _ _ K)|apply (rb_goal _ _ K)]).
  assert (Ds : dsame d' d) by now apply domain_parts. assert (El' : plan_eqb pl pl' = true) by now rewrite (eqv_sym _ plan_eqb_equiv).
  split; intros [X H]; split; auto.
  - eapply solves_equal; eauto.
  - eapply solves_equal; eauto using dsame_sym, psame_sym.
Qed.
Print Assumptions C83_printed_partial.
(** the domain of C33's example and the problem of C32's, and a plan *)
Example C83_printed_ex : exists d p, ex_domain = Ok d /\ ex_problem = Ok p /\ domain_built d /\ expressible_domain d
  /\ NoDupE atom_eqb (map fst (d_functions d)) /\ problem_reach p /\ expressible_problem p
  /\ parse_plan (show_plan [("put", [("a", Some "block"); ("b", Some "block")])]) = Ok [("put", [("a", None); ("b", None)])].
Proof.
  destruct C33_ex as (d & _ & _ & A & B & C & D & _). destruct C32_ex as (p & _ & F & G & H & _). exists d, p. do 7 (split; auto).
Qed.
