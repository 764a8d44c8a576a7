(** Facts: sorted() of sets of requirements and terms; what [<] of derived predicates returns. *)
From Coq Require Import String List Bool Permutation Sorted.
From Verif Require Import Py Names Reqs Logic Py_facts Logic_facts Order_facts Strict_facts.
Import ListNotations.
Open Scope string_scope.

(** the sort only compares different elements *)
Lemma sort_by_ext_on {A} (lt lt' : A -> A -> bool) l :
  (forall x y, In x l -> In y l -> x <> y -> lt x y = lt' x y) -> NoDup l ->
  sort_by lt l = sort_by lt' l.
Proof.
  induction l as [|x l IH]; intros H ND; auto. simpl. inversion ND as [|? ? NI ND']; subst.
  rewrite IH; [|intros; apply H; simpl; auto|auto].
  assert (K : forall y, In y (sort_by lt' l) -> In y l).
  { intros y Hy. eapply Permutation_in; [|exact Hy]. apply sort_perm. }
  revert K. generalize (sort_by lt' l). intros m. induction m as [|y m IHm]; intros K; simpl; auto.
  assert (Ly : In y l) by (apply K; simpl; auto).
  rewrite (H y x); simpl; auto; try (intros ->; contradiction).
  destruct (lt' y x); auto. rewrite IHm; auto. intros; apply K; simpl; auto.
Qed.

Lemma NoDupE_apart {A} (eqb : A -> A -> bool) l : is_equiv eqb -> NoDupE eqb l ->
  forall x y, In x l -> In y l -> x <> y -> eqb x y = false.
Proof.
  intros E ND. induction ND as [|a l M ND IH]; intros x y Hx Hy N; [destruct Hx|].
  rewrite memb_false in M. destruct Hx as [<-|Hx], Hy as [<-|Hy].
  - contradiction.
  - apply (M _ Hy).
  - rewrite (eqv_sym _ E). apply (M _ Hx).
  - auto.
Qed.
Lemma NoDupE_NoDup' {A} (eqb : A -> A -> bool) l : is_equiv eqb -> NoDupE eqb l -> NoDup l.
Proof.
  intros E ND. induction ND as [|a l M ND IH]; constructor; auto. intros H.
  rewrite memb_false in M. pose proof (M _ H) as Q. rewrite (eqv_refl _ E) in Q. discriminate.
Qed.

Lemma sort_terms_any_order l m :
  Forall tags_set l -> NoDupE term_eqb l -> Permutation l m -> sort_by term_lt l = sort_by term_lt m.
Proof.
  intros F ND PM.
  assert (X : forall x y, In x l -> In y l -> x <> y -> term_lt x y = term_slt x y).
  { intros x y Hx Hy N. symmetry. apply slt_lt. eapply NoDupE_apart; eauto. apply term_eqb_equiv. }
  pose proof (NoDupE_NoDup' _ _ term_eqb_equiv ND) as N.
  rewrite (sort_by_ext_on term_lt term_slt l X N).
  rewrite (sort_by_ext_on term_lt term_slt m).
  - exact (sort_any_order _ _ _ _ _ slt_tot_order F ND PM).
  - intros x y Hx Hy. symmetry in PM. apply X; eapply Permutation_in; eauto.
  - eapply Permutation_NoDup; eauto.
Qed.

(** ** requirements *)
Definition req_before (a b : req) : bool := str_lt (req_value a) (req_value b).
Lemma req_before_tot : tot_order req_eqb req_before (fun _ => True).
Proof.
  constructor.
  - apply req_eqb_equiv.
  - intros x y _ _ E. apply (to_tri _ _ _ str_tot_order); auto.
  - intros x y _ _ E. apply (to_irr _ _ _ str_tot_order); auto.
  - intros x y z _ _ _. apply (to_tr _ _ _ str_tot_order); auto.
Qed.
Lemma req_lt_before a b : a <> b -> req_lt a b = req_before a b.
Proof.
  intros N. unfold req_before. destruct (str_lt (req_value a) (req_value b)) eqn:L.
  - apply req_lt_spec. auto.
  - destruct (req_lt a b) eqn:R; auto. apply req_lt_spec in R. destruct R; congruence.
Qed.
Lemma NoDup_req l : NoDup l -> NoDupE req_eqb l.
Proof.
  induction 1 as [|a l N ND IH]; constructor; auto.
  destruct (memb req_eqb a l) eqn:M; auto. apply memb_req_In in M. contradiction.
Qed.
Lemma sort_reqs l : NoDup l ->
  Permutation (sort_by req_lt l) l /\
  StronglySorted (fun a b => str_lt (req_value a) (req_value b) = true) (sort_by req_lt l) /\
  forall m, Permutation l m -> sort_by req_lt m = sort_by req_lt l.
Proof.
  intros ND. split; [apply sort_perm|]. split.
  - assert (ND' : NoDup (sort_by req_lt l)) by (eapply Permutation_NoDup; [symmetry; apply sort_perm|auto]).
    assert (S : StronglySorted (le req_before) (sort_by req_lt l)).
    { rewrite (sort_by_ext_on req_lt req_before l); auto using req_lt_before.
      apply (sort_sorted_on _ (fun _ => True)); [| |apply Forall_forall; auto].
      - unfold le. intros x y z _ _ _ H1 H2. destruct (req_before z x) eqn:L; auto. exfalso.
        destruct (req_eqb y z) eqn:Q; [apply req_eqb_eq in Q; subst; congruence|].
        pose proof (to_tri _ _ _ req_before_tot y z Logic.I Logic.I Q) as T. rewrite H2 in T. simpl in T.
        pose proof (to_tr _ _ _ req_before_tot y z x Logic.I Logic.I Logic.I T L). congruence.
      - unfold le. intros x y _ _. destruct (req_eqb x y) eqn:Q.
        + left. apply req_eqb_eq in Q. subst. apply str_lt_irrefl.
        + pose proof (to_tri _ _ _ req_before_tot x y Logic.I Logic.I Q) as T. rewrite T.
          destruct (req_before y x); auto. }
    revert ND' S. generalize (sort_by req_lt l). intros s. induction s as [|a s IH]; intros ND' S; constructor.
    + inversion ND'; inversion S; auto.
    + inversion ND' as [|? ? NI _]; inversion S as [|? ? _ F]; subst. rewrite Forall_forall in *.
      intros b Hb. specialize (F b Hb). unfold le in F.
      assert (Q : req_eqb a b = false).
      { destruct (req_eqb a b) eqn:Q; auto. apply req_eqb_eq in Q. subst. contradiction. }
      pose proof (to_tri _ _ _ req_before_tot a b Logic.I Logic.I Q) as T. rewrite F in T. exact T.
  - intros m PM. rewrite !(sort_by_ext_on req_lt req_before); auto using req_lt_before.
    + symmetry. apply (sort_any_order _ _ _ _ _ req_before_tot); auto using NoDup_req.
      apply Forall_forall; auto.
    + eapply Permutation_NoDup; eauto.
Qed.

(** ** terms *)
Lemma tags_sorted_eq a b : t_class a = t_class b -> t_name a = t_name b ->
  sort_str (t_tags a) = sort_str (t_tags b) -> term_lt a b = false.
Proof.
  intros H1 H2 H3. unfold term_lt. rewrite H1, H2, H3, !String.eqb_refl.
  apply (to_irr _ _ _ strs_tot_order); auto. apply list_string_eqb_eq. auto.
Qed.
