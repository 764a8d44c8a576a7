(** Property theorems: the orders of requirements (C22), terms and derived predicates (C23), exactly,
    and sorted() of sets of them. *)
From Coq Require Import String List Bool Permutation Sorted.
From Verif Require Import Py Names Reqs Logic Py_facts Logic_facts Order_facts Strict_facts Ranked_facts Prop_Logic.
Import ListNotations.
Open Scope string_scope.

(** * C22 *)
(** All four comparisons exactly, in terms of the order of the written flags: [<] is [<=] and [>=] is [>],
    so they are wrong precisely where both sides are the same requirement. *)
Lemma req_exact a b :
  (req_lt a b = true <-> a = b \/ str_lt (req_value a) (req_value b) = true) /\
  (req_le a b = true <-> a = b \/ str_lt (req_value a) (req_value b) = true) /\
  (req_gt a b = true <-> str_lt (req_value b) (req_value a) = true) /\
  (req_ge a b = true <-> str_lt (req_value b) (req_value a) = true).
Proof.
  rewrite req_le_lt. split; [apply req_lt_spec|]. split; [apply req_lt_spec|].
  split; [apply req_gt_spec|]. rewrite <- req_gt_spec. unfold req_ge, req_gt.
  destruct (req_eqb a b) eqn:E; [|now rewrite andb_true_r].
  apply req_eqb_eq in E. subst. assert (H : req_lt b b = true) by (apply req_lt_spec; auto).
  rewrite H. simpl. tauto.
Qed.
Theorem C22_exact : forall a b,
  (req_lt a b = true <-> a = b \/ str_lt (req_value a) (req_value b) = true) /\
  (req_le a b = true <-> a = b \/ str_lt (req_value a) (req_value b) = true) /\
  (req_gt a b = true <-> str_lt (req_value b) (req_value a) = true) /\
  (req_ge a b = true <-> str_lt (req_value b) (req_value a) = true).
Proof. exact req_exact. Qed.
Print Assumptions C22_exact.

(** sorted() of a set of requirements is right all the same: it lists the set, strictly increasing, and
    does not depend on the order in which the set is iterated *)
Theorem C22_sorted : forall l, NoDup l ->
  Permutation (sort_by req_lt l) l /\
  StronglySorted (fun a b => str_lt (req_value a) (req_value b) = true) (sort_by req_lt l) /\
  forall m, Permutation l m -> sort_by req_lt m = sort_by req_lt l.
Proof. exact sort_reqs. Qed.
Print Assumptions C22_sorted.
Example C22_ex_sorted : NoDup [TYPING; STRIPS; ADL] /\ sort_by req_lt [TYPING; STRIPS; ADL] = [ADL; STRIPS; TYPING].
Proof. split; [repeat constructor; simpl; intuition discriminate|reflexivity]. Qed.

(** * C23 *)
(** Two terms are compared as the property asks exactly when they are not constants of one name with
    different types; < is transitive in all cases. *)
Lemma const_clash n g h : g <> h ->
  term_eqb (TConst n g) (TConst n h) = true /\
  (term_lt (TConst n g) (TConst n h) = true \/ term_lt (TConst n h) (TConst n g) = true).
Proof.
  intros N. split; [simpl; apply String.eqb_refl|]. unfold term_lt. simpl. rewrite !String.eqb_refl.
  destruct g as [g|], h as [h|]; simpl; auto.
  destruct (String.eqb g h) eqn:E; [apply String.eqb_eq in E; congruence|].
  rewrite String.eqb_sym, E. rewrite (to_tri _ _ _ str_tot_order g h); auto.
  destruct (str_lt h g); auto.
Qed.
Lemma terms_exact a b : tags_set a -> tags_set b ->
  (exactly_one (term_lt a b) (term_eqb a b) (term_lt b a) <->
   ~ exists n g h, g <> h /\ a = TConst n g /\ b = TConst n h).
Proof.
  intros Sa Sb. split.
  - intros X (n & g & h & N & -> & ->). destruct (const_clash n g h N) as [E L].
    unfold exactly_one in X. rewrite E in X. intuition congruence.
  - intros X. assert (Ag : tags_agree a b).
    { destruct a as [n g|], b as [m h|]; simpl; auto. intros <-.
      destruct g as [g|], h as [h|]; auto.
      - destruct (String.eqb g h) eqn:E; [now apply String.eqb_eq in E; subst|].
        exfalso. apply X. exists n, (Some g), (Some h). repeat split; auto.
        intros [= ->]. now rewrite String.eqb_refl in E.
      - exfalso. apply X. exists n, (Some g), None. repeat split; auto. discriminate.
      - exfalso. apply X. exists n, None, (Some h). repeat split; auto. discriminate. }
    apply (C23_terms_partial (fun t => t = a \/ t = b)); auto. split.
    + intros t [->| ->]; auto.
    + assert (Ag' : tags_agree b a).
      { destruct a as [n g|], b as [m h|]; simpl in *; auto. intros ->. symmetry. auto. }
      intros x y [->| ->] [->| ->]; auto; match goal with |- tags_agree ?u ?u => destruct u; simpl; auto end.
Qed.
Theorem C23_terms_exact :
  (forall a b, tags_set a -> tags_set b ->
     (exactly_one (term_lt a b) (term_eqb a b) (term_lt b a) <->
      ~ exists n g h, g <> h /\ a = TConst n g /\ b = TConst n h)) /\
  (forall a b c, term_lt a b = true -> term_lt b c = true -> term_lt a c = true).
Proof. exact (conj terms_exact term_lt_trans). Qed.
Print Assumptions C23_terms_exact.

(** sorted() of a set of terms never depends on its iteration order: in a set no two elements are == *)
Theorem C23_sorted_terms : forall l m,
  Forall tags_set l -> NoDupE term_eqb l -> Permutation l m -> sort_by term_lt l = sort_by term_lt m.
Proof. exact sort_terms_any_order. Qed.
Print Assumptions C23_sorted_terms.
Example C23_ex_sorted_terms :
  let l := [TVar (mkVar "x" ["u"; "t"]); TConst "b" (Some "t1"); TConst "a" (Some "t2"); TVar (mkVar "x" [])] in
  Forall tags_set l /\ NoDupE term_eqb l /\
  sort_by term_lt l = [TConst "a" (Some "t2"); TConst "b" (Some "t1"); TVar (mkVar "x" []); TVar (mkVar "x" ["u"; "t"])].
Proof.
  repeat split; try (repeat constructor; simpl; intuition discriminate).
Qed.

(** Derived predicates, exactly.  Those with different heads are compared by their heads.  With the same
    head, the head is compared with the condition of the right-hand side: TypeError unless that is a
    predicate. *)
Lemma derived_exact a b :
  (form_eqb (dp_pred a) (dp_pred b) = false ->
   derived_lt a b = Ok (atom_lt (dp_name a) (dp_terms a) (dp_name b) (dp_terms b))) /\
  (form_eqb (dp_pred a) (dp_pred b) = true -> forall n ts, dp_cond b = FPred n ts ->
   Forall tags_set (dp_terms a) -> Forall tags_set ts ->
   derived_lt a b = Ok (atom_lt (dp_name a) (dp_terms a) n ts)) /\
  (forall e, derived_lt a b = Err e <->
   e = TypeError /\ form_eqb (dp_pred a) (dp_pred b) = true /\ ~ exists n ts, dp_cond b = FPred n ts).
Proof.
  unfold derived_lt. split; [|split].
  - intros ->. reflexivity.
  - intros -> n ts -> Sa St. destruct (form_eqb (dp_pred a) (FPred n ts)) eqn:E; [|reflexivity].
    f_equal. symmetry.
    apply (to_irr _ _ _ atom_strict (dp_name a, dp_terms a) (n, ts)); simpl; auto.
  - intros e. destruct (form_eqb (dp_pred a) (dp_pred b)) eqn:E.
    + destruct (dp_cond b) as [n ts| | | | | | | | |] eqn:C.
      1: { destruct (form_eqb (dp_pred a) (FPred n ts)); simpl; (split; [intros X; discriminate X|]);
           intros (_ & _ & N); exfalso; apply N; eauto. }
      all: simpl; split; [intros [= <-]; repeat split; auto; intros (? & ? & ?); discriminate|intros (-> & _); auto].
    + split; [discriminate|]. intros (_ & ? & _). discriminate.
Qed.
Theorem C23_derived_exact : forall a b,
  (form_eqb (dp_pred a) (dp_pred b) = false ->
   derived_lt a b = Ok (atom_lt (dp_name a) (dp_terms a) (dp_name b) (dp_terms b))) /\
  (form_eqb (dp_pred a) (dp_pred b) = true -> forall n ts, dp_cond b = FPred n ts ->
   Forall tags_set (dp_terms a) -> Forall tags_set ts ->
   derived_lt a b = Ok (atom_lt (dp_name a) (dp_terms a) n ts)) /\
  (forall e, derived_lt a b = Err e <->
   e = TypeError /\ form_eqb (dp_pred a) (dp_pred b) = true /\ ~ exists n ts, dp_cond b = FPred n ts).
Proof. exact derived_exact. Qed.
Print Assumptions C23_derived_exact.
Example C23_ex_derived :
  derived_lt (mkDerived "p" [] (FPred "q" [])) (mkDerived "r" [] (FNot (FPred "q" []))) = Ok true /\
  derived_lt (mkDerived "p" [] (FPred "q" [])) (mkDerived "p" [] (FPred "a" [])) = Ok false.
Proof. split; reflexivity. Qed.
