(** C90: all four comparisons of terms and of derived predicates. *)
From Coq Require Import String List Bool.
From Verif Require Import Py Names Logic TermCompare Py_facts Logic_facts Order_facts Strict_facts Prop_Logic Prop_Ranked.
Import ListNotations.
Open Scope string_scope.

Lemma gt_slt a b : tags_set a -> tags_set b -> term_gt a b = term_slt b a.
Proof.
  intros Sa Sb. unfold term_gt, term_slt. rewrite (eqv_sym _ term_eqb_equiv b a).
  destruct (term_eqb a b) eqn:E; simpl; [apply andb_false_r|]. rewrite andb_true_r.
  assert (E' : term_eqb b a = false) by now rewrite (eqv_sym _ term_eqb_equiv).
  pose proof (to_tri _ _ _ slt_tot_order b a Sb Sa E') as T.
  rewrite !slt_lt in T by auto. now rewrite T.
Qed.
Lemma le_slt a b : tags_set a -> tags_set b -> term_le a b = negb (term_slt b a).
Proof.
  intros Sa Sb. rewrite <- gt_slt by auto. unfold term_le, term_gt.
  now destruct (term_lt a b), (term_eqb a b).
Qed.

(** [<=] and [>] are right for all terms, also for constants of one name with different types: [>] is a
    strict total order compatible with ==, and [<=] is its complement. *)
Lemma le_gt_right :
  (forall a b, tags_set a -> tags_set b -> exactly_one (term_gt a b) (term_eqb a b) (term_gt b a)) /\
  (forall a b c, tags_set a -> tags_set b -> tags_set c ->
     term_gt a b = true -> term_gt b c = true -> term_gt a c = true) /\
  (forall a b, tags_set a -> tags_set b -> term_le a b = negb (term_gt a b)) /\
  (forall a b, tags_set a -> tags_set b ->
     (term_le a b = true /\ term_le b a = true <-> term_eqb a b = true)) /\
  (forall a b c, tags_set a -> tags_set b -> tags_set c ->
     term_le a b = true -> term_le b c = true -> term_le a c = true).
Proof.
  destruct (tot_exactly_one _ _ _ slt_tot_order) as [X Y]. repeat split.
  - intros a b Sa Sb. rewrite !gt_slt by auto. specialize (X a b Sa Sb). unfold exactly_one in *. tauto.
  - intros a b c Sa Sb Sc. rewrite !gt_slt by auto. intros H1 H2. exact (Y c b a Sc Sb Sa H2 H1).
  - intros a b Sa Sb. now rewrite le_slt, gt_slt.
  - intros [H1 H2]. rewrite le_slt in H1, H2 by auto. specialize (X a b H H0). unfold exactly_one in X.
    rewrite negb_true_iff in H1, H2. rewrite H1, H2 in X. intuition congruence.
  - unfold term_le. rewrite H1. apply orb_true_r.
  - unfold term_le. rewrite (eqv_sym _ term_eqb_equiv), H1. apply orb_true_r.
  - intros a b c Sa Sb Sc. rewrite !le_slt, !negb_true_iff by auto. intros H1 H2.
    destruct (term_slt c a) eqn:L; auto. exfalso.
    pose proof (X a b Sa Sb) as Xab. unfold exactly_one in Xab. rewrite H1 in Xab.
    destruct Xab as [(Lab & _)|[(_ & E & _)|(_ & _ & ?)]]; [| |discriminate].
    + rewrite (Y c a b Sc Sa Sb L Lab) in H2. discriminate.
    + rewrite (to_lt_cong_r _ _ _ slt_tot_order a b c Sa Sb Sc E L) in H2. discriminate.
Qed.
Theorem C90_right :
  (forall a b, tags_set a -> tags_set b -> exactly_one (term_gt a b) (term_eqb a b) (term_gt b a)) /\
  (forall a b c, tags_set a -> tags_set b -> tags_set c ->
     term_gt a b = true -> term_gt b c = true -> term_gt a c = true) /\
  (forall a b, tags_set a -> tags_set b -> term_le a b = negb (term_gt a b)) /\
  (forall a b, tags_set a -> tags_set b ->
     (term_le a b = true /\ term_le b a = true <-> term_eqb a b = true)) /\
  (forall a b c, tags_set a -> tags_set b -> tags_set c ->
     term_le a b = true -> term_le b c = true -> term_le a c = true).
Proof. exact le_gt_right. Qed.
Print Assumptions C90_right.

(** The operators agree with each other ([a < b] is [b > a], [a >= b] is [b <= a], in both directions)
    exactly when the two are not constants of one name with different types. *)
Lemma agree_exact a b : tags_set a -> tags_set b ->
  ((term_lt a b = term_gt b a /\ term_lt b a = term_gt a b /\
    term_ge a b = term_le b a /\ term_ge b a = term_le a b) <->
   ~ exists n g h, g <> h /\ a = TConst n g /\ b = TConst n h).
Proof.
  intros Sa Sb. rewrite <- (proj1 C23_terms_exact a b Sa Sb). unfold exactly_one, term_gt, term_ge, term_le.
  rewrite (eqv_sym _ term_eqb_equiv b a).
  destruct (term_eqb a b) eqn:E.
  - destruct (term_lt a b), (term_lt b a); simpl; intuition congruence.
  - assert (T : term_lt a b = negb (term_lt b a)).
    { rewrite <- (slt_lt a b E). rewrite <- (slt_lt b a); [|now rewrite (eqv_sym _ term_eqb_equiv)].
      apply (to_tri _ _ _ slt_tot_order); auto. }
    rewrite T. destruct (term_lt b a); simpl; intuition congruence.
Qed.
Theorem C90_exact : forall a b, tags_set a -> tags_set b ->
  ((term_lt a b = term_gt b a /\ term_lt b a = term_gt a b /\
    term_ge a b = term_le b a /\ term_ge b a = term_le a b) <->
   ~ exists n g h, g <> h /\ a = TConst n g /\ b = TConst n h).
Proof. exact agree_exact. Qed.
Print Assumptions C90_exact.
Example C90_ex :
  let a := TConst "c" (Some "t1") in let b := TConst "c" (Some "t2") in
  tags_set a /\ tags_set b /\ term_lt a b = true /\ term_gt b a = false /\ term_le b a = true /\ term_ge a b = false
  /\ term_gt (TVar (mkVar "x" [])) a = true.
Proof. repeat split; try (repeat constructor; simpl; intuition discriminate). Qed.

(** False as stated: *)
Theorem C90_refuted : exists a b, mk_const "c" (Some "t1") = Ok a /\ mk_const "c" (Some "t2") = Ok b /\
  term_lt a b = true /\ term_gt b a = false.
Proof. exists (TConst "c" (Some "t1")), (TConst "c" (Some "t2")). vm_compute. auto. Qed.
Print Assumptions C90_refuted.

(** Derived predicates with different heads: every comparison is the one of the heads. *)
Lemma derived_heads a b : form_eqb (dp_pred a) (dp_pred b) = false ->
  Forall tags_set (dp_terms a) -> Forall tags_set (dp_terms b) ->
  exists r, derived_lt a b = Ok r /\ derived_gt a b = Ok (negb r) /\
            derived_le a b = Ok r /\ derived_ge a b = Ok (negb r) /\
            derived_lt b a = Ok (negb r) /\ derived_gt b a = Ok r /\
            derived_le b a = Ok (negb r) /\ derived_ge b a = Ok r.
Proof.
  intros E Sa Sb. exists (atom_lt (dp_name a) (dp_terms a) (dp_name b) (dp_terms b)).
  assert (E' : form_eqb (dp_pred b) (dp_pred a) = false) by now rewrite (eqv_sym _ form_eqb_equiv).
  assert (D : derived_eqb a b = false) by (unfold derived_eqb; now rewrite E).
  assert (D' : derived_eqb b a = false) by (unfold derived_eqb; now rewrite E').
  pose proof (proj1 (C23_derived_exact a b) E) as L. pose proof (proj1 (C23_derived_exact b a) E') as L'.
  assert (T : atom_lt (dp_name b) (dp_terms b) (dp_name a) (dp_terms a)
              = negb (atom_lt (dp_name a) (dp_terms a) (dp_name b) (dp_terms b))).
  { apply (to_tri _ _ _ atom_strict (dp_name b, dp_terms b) (dp_name a, dp_terms a)); simpl; auto. }
  rewrite T in L'. unfold derived_gt, derived_le, derived_ge. rewrite L, L'. simpl. rewrite D, D'.
  destruct (atom_lt (dp_name a) (dp_terms a) (dp_name b) (dp_terms b)); simpl; repeat split; auto.
Qed.
(** Missing: derived predicates with the same head, for which see C90_derived_raises and C23_derived_exact. *)
Theorem C90_derived_partial : forall a b, form_eqb (dp_pred a) (dp_pred b) = false ->
  Forall tags_set (dp_terms a) -> Forall tags_set (dp_terms b) ->
  exists r, derived_lt a b = Ok r /\ derived_gt a b = Ok (negb r) /\
            derived_le a b = Ok r /\ derived_ge a b = Ok (negb r) /\
            derived_lt b a = Ok (negb r) /\ derived_gt b a = Ok r /\
            derived_le b a = Ok (negb r) /\ derived_ge b a = Ok r.
Proof. exact derived_heads. Qed.
Print Assumptions C90_derived_partial.
(** All four raise TypeError together, exactly when the heads are equal and the condition on the right is
    not a predicate; even for [d <= d]. *)
Lemma derived_raises a b e :
  (derived_gt a b = Err e <-> derived_lt a b = Err e) /\
  (derived_le a b = Err e <-> derived_lt a b = Err e) /\
  (derived_ge a b = Err e <-> derived_lt a b = Err e) /\
  (derived_lt a b = Err e <->
   e = TypeError /\ form_eqb (dp_pred a) (dp_pred b) = true /\ ~ exists n ts, dp_cond b = FPred n ts).
Proof.
  split; [|split; [|split]].
  4: exact (proj2 (proj2 (C23_derived_exact a b)) e).
  all: unfold derived_gt, derived_le, derived_ge; destruct (derived_lt a b) as [r|x]; simpl; split; intros X;
    try discriminate X; congruence.
Qed.
Theorem C90_derived_raises : forall a b e,
  (derived_gt a b = Err e <-> derived_lt a b = Err e) /\
  (derived_le a b = Err e <-> derived_lt a b = Err e) /\
  (derived_ge a b = Err e <-> derived_lt a b = Err e) /\
  (derived_lt a b = Err e <->
   e = TypeError /\ form_eqb (dp_pred a) (dp_pred b) = true /\ ~ exists n ts, dp_cond b = FPred n ts).
Proof. exact derived_raises. Qed.
Print Assumptions C90_derived_raises.
Example C90_ex_derived :
  let d := mkDerived "p" [TVar (mkVar "x" ["t"])] (FNot (FPred "q" [])) in
  let k := mkDerived "r" [] (FPred "q" []) in
  derived_le d d = Err TypeError /\ form_eqb (dp_pred d) (dp_pred k) = false /\ derived_gt k d = Ok true.
Proof. repeat split. Qed.
