(** C20: histories of assignments to the attribute [domain] of a problem, accepted or rejected. *)
From Coq Require Import String List Bool.
From Verif Require Import Py Names Reqs Logic Validation Core Spec Spec_Core Py_facts Logic_facts Names_facts Order_facts Inst_facts Core_facts.
Import ListNotations.
Open Scope string_scope.
Open Scope list_scope.

(** the problem after the assignments [p.domain = d], one after the other, where the exceptions of
    rejected ones are caught *)
Definition after_assigning (p : problem) (ds : list domain) : problem :=
  fold_left (fun p d => fst (set_domain p d)) ds p.

Lemma set_after : forall ds p d, set_domain (after_assigning p ds) d = set_domain p d.
Proof. induction ds as [|x ds IH]; intros p d; [reflexivity|].
  change (after_assigning p (x :: ds)) with (after_assigning (fst (set_domain p x)) ds). now rewrite IH. Qed.

(** exactly which assignments are accepted; the name for which the problem was written plays no part *)
Theorem C20_assign_exact : forall p d, domain_built d ->
  (snd (set_domain p d) = Ok tt <->
   (forall rs, p_reqs p = Some rs -> incl rs (d_reqs d)) /\ problem_typed p d).
Proof.
  intros p d B. unfold set_domain. cbn [snd problem_check_consistency p_domain]. rewrite problem_check_Ok by exact B.
  unfold get_domain_name. cbn [p_domain p_reqs]. unfold problem_typed. cbn. tauto.
Qed.
Print Assumptions C20_assign_exact.

(** earlier assignments, accepted or not, leave no trace in later ones *)
Theorem C20_later_assignments : forall p ds d, set_domain (after_assigning p ds) d = set_domain p d.
Proof. intros. apply set_after. Qed.
Print Assumptions C20_later_assignments.

Lemma reach_name p : problem_reach p -> forall d, p_domain p = Some d -> p_domain_name p = d_name d.
Proof.
  intros R d E. destruct R as [n dm dn rs objs init goal m p X H|p d' p' R B S].
  - unfold mk_problem in H. apply bind_Ok in H as (n' & _ & H). apply bind_Ok in H as (dd & D & H). apply bind_Ok in H as (rs' & _ & H).
    apply bind_Ok in H as (u & _ & H). apply bind_Ok in H as (u' & _ & H). injection H as <-. cbn in *.
    destruct dd as [d1 n1]. cbn in E. subst d1. destruct dm as [x|], dn as [y|]; cbn in D; try discriminate.
    + apply bind_Ok in D as (v & C & D). unfold check in C. destruct (String.eqb (d_name x) y) eqn:Q; [|discriminate]. apply String.eqb_eq in Q as <-.
      apply bind_Ok in D as (n2 & N & D). injection D as <- <-. now apply parse_name_Ok' in N as [-> _].
    + injection D as <- <-. reflexivity.
    + apply bind_Ok in D as (n2 & N & D). discriminate.
  - unfold set_domain in S. injection S as <- _. cbn in *. congruence.
Qed.

(** a problem that has a domain gets back to what it was by assigning that domain again, whatever
    assignments were accepted or rejected in between *)
Theorem C20_undo : forall p d ds, problem_reach p -> get_domain p = Ok d ->
  set_domain (after_assigning p ds) d = (p, Ok tt).
Proof.
  intros p d ds R E. assert (D : p_domain p = Some d) by (unfold get_domain in E; destruct (p_domain p); [now injection E as ->|discriminate]).
  rewrite set_after. unfold set_domain. assert (Q : mkProblem (p_name p) (Some d) (d_name d) (p_reqs p) (p_objects p) (p_init p) (p_goal p) (p_metric p) = p).
  { rewrite <- D, <- (reach_name p R d D). now destruct p. }
  rewrite Q. f_equal. unfold problem_check_consistency. rewrite D. now apply (problem_reach_ok p R d D).
Qed.
Print Assumptions C20_undo.

(** hence after any history that ends with an accepted assignment the problem is consistent *)
Theorem C20_histories : forall p ds d, problem_reach p -> domain_built d ->
  snd (set_domain (after_assigning p ds) d) = Ok tt ->
  let q := after_assigning p (ds ++ [d]) in
  problem_reach q /\ get_domain q = Ok d /\ get_domain_name q = d_name d /\ get_requirements q = d_reqs d
  /\ (forall rs, p_reqs q = Some rs -> incl rs (d_reqs d)) /\ problem_typed q d.
Proof.
  intros p ds d R B S q. assert (Q : q = fst (set_domain p d)).
  { unfold q, after_assigning. rewrite fold_left_app. cbn [fold_left]. fold (after_assigning p ds). now rewrite set_after. }
  rewrite set_after in S. assert (Rq : problem_reach q).
  { rewrite Q. apply (PR_set p d); auto. rewrite <- S. now destruct (set_domain p d). }
  split; [exact Rq|]. rewrite Q. split; [reflexivity|]. split; [reflexivity|]. split; [reflexivity|].
  now apply (C20_assign_exact p d B).
Qed.
Print Assumptions C20_histories.

(** a problem without a domain whose first assignment is rejected keeps the rejected domain, and no
    assignment leads back *)
Theorem C20_undo_refuted : ~ (forall p d, problem_reach p -> domain_built d -> snd (set_domain p d) <> Ok tt ->
  exists ds, after_assigning p (d :: ds) = p).
Proof.
  intros H. pose (t := FPred "p" [TConst "k" (Some "ty")]).
  destruct (mk_problem "p" None (Some "d1") None [] [] (Some t) None) as [p|e] eqn:E; [|vm_compute in E; discriminate].
  assert (R : problem_reach p) by (eapply PR_new; [|exact E]; intros x X; discriminate).
  pose (d := mkDomain "d2" [] [] [] [] [] [] []).
  assert (D : domain_built d) by (exists "d2", [], None, [], [], [], [], []; reflexivity).
  assert (N : p_domain p = None) by (vm_compute in E; inversion E; reflexivity).
  destruct (H p d R D) as (ds & A). { vm_compute in E. inversion E; subst p. vm_compute. discriminate. }
  assert (K : forall ds x, p_domain x <> None -> p_domain (after_assigning x ds) <> None).
  { clear. induction ds as [|y ds IH]; intros x X; [exact X|]. cbn. apply IH. cbn. discriminate. }
  apply (K ds (fst (set_domain p d))); [discriminate|]. change (after_assigning (fst (set_domain p d)) ds) with (after_assigning p (d :: ds)). now rewrite A.
Qed.
Print Assumptions C20_undo_refuted.

(** a problem with a domain, a rejected assignment, and the way back *)
Example C20_undo_ex : exists p d d', problem_reach p /\ domain_built d' /\ get_domain p = Ok d /\
  snd (set_domain p d') = Err PDDLValidationError /\ p_objects p <> [] /\ set_domain (after_assigning p [d'; d'; d; d']) d = (p, Ok tt).
Proof.
  pose (d := mkDomain "d" [TYPING] [("ty", None)] [] [] [] [] []). pose (d' := mkDomain "e" [] [] [] [] [] [] []).
  assert (B : domain_built d) by (exists "d", [TYPING], (Some [("ty", None)]), [], [], [], [], []; reflexivity).
  destruct (mk_problem "p" (Some d) None None [("k", Some "ty")] [] None None) as [p|e] eqn:E; [|vm_compute in E; discriminate].
  assert (R : problem_reach p) by (eapply PR_new; [|exact E]; intros x X; injection X as <-; exact B).
  assert (G : get_domain p = Ok d) by (vm_compute in E; inversion E; reflexivity).
  exists p, d, d'. split; [exact R|]. split; [exists "e", [], None, [], [], [], [], []; reflexivity|]. split; [exact G|].
  split; [vm_compute in E; inversion E; subst; reflexivity|]. split; [vm_compute in E; inversion E; discriminate|].
  now apply C20_undo.
Qed.
