(** Lemmas for C46: which operands a node has. *)
From Coq Require Import String List Bool ZArith Lia.
From Verif Require Import Py Names Logic Built Spec_Ops Py_facts Logic_facts Ops_facts Built_facts.
Import ListNotations.
Open Scope string_scope.
Open Scope list_scope.

Lemma Forall2_map_self {A B} (R : A -> B -> Prop) (f : A -> B) l :
  Forall (fun x => R x (f x)) l -> Forall2 R l (map f l).
Proof. induction 1; simpl; auto. Qed.

Lemma members_leaves k f : members k f (leaves (CBin k) f).
Proof.
  induction f using form_ind'; simpl; try (apply M_leaf; intros; discriminate).
  destruct (bop_eqb k k0) eqn:K.
  - apply bop_eqb_eq in K. subst. rewrite flat_map_concat_map. apply M_node.
    apply Forall2_map_self. auto.
  - apply M_leaf. intros ops0 E. inversion E; subst. rewrite (proj2 (bop_eqb_eq k k)) in K; congruence.
Qed.
Lemma fmembers_leaves k f : fmembers k f (leaves (CFun k) f).
Proof.
  induction f using form_ind'; simpl; try (apply FM_leaf; intros; discriminate).
  destruct (bfun_eqb k k0) eqn:K.
  - apply bfun_eqb_eq in K. subst. rewrite flat_map_concat_map. apply FM_node.
    apply Forall2_map_self. auto.
  - apply FM_leaf. intros ops0 E. inversion E; subst. rewrite (proj2 (bfun_eqb_eq k k)) in K; congruence.
Qed.

Lemma members_fun k f : forall l, members k f l -> l = leaves (CBin k) f.
Proof.
  induction f using form_ind'; intros out M; inversion M; subst; simpl; auto.
  - rewrite (proj2 (bop_eqb_eq _ _) eq_refl). rewrite flat_map_concat_map. f_equal.
    match goal with H : Forall2 _ _ _ |- _ => revert H end. clear M.
    revert ls. induction H; intros ls F; inversion F; subst; simpl; auto. f_equal; auto.
  - destruct (bop_eqb _ _) eqn:K; auto. apply bop_eqb_eq in K. subst. exfalso. eapply H0. reflexivity.
Qed.
Lemma fmembers_fun k f : forall l, fmembers k f l -> l = leaves (CFun k) f.
Proof.
  induction f using form_ind'; intros out M; inversion M; subst; simpl; auto.
  - rewrite (proj2 (bfun_eqb_eq _ _) eq_refl). rewrite flat_map_concat_map. f_equal.
    match goal with H : Forall2 _ _ _ |- _ => revert H end. clear M.
    revert ls. induction H; intros ls F; inversion F; subst; simpl; auto. f_equal; auto.
  - destruct (bfun_eqb _ _) eqn:K; auto. apply bfun_eqb_eq in K. subst. exfalso. eapply H0. reflexivity.
Qed.

Lemma memb_In_form x l : memb form_eqb x l = true <-> exists y, In y l /\ form_eqb y x = true.
Proof.
  induction l as [|a l IH]; simpl.
  - split; [discriminate|intros (y & [] & _)].
  - rewrite orb_true_iff, IH. split.
    + intros [E|(y & I & E)]; [exists a|exists y]; split; auto. now rewrite form_eqb_sym.
    + intros (y & [->|I] & E); [left; now rewrite form_eqb_sym|right; eauto].
Qed.
Lemma firsts_dedup l : forall seen, firsts seen l (dedup_from form_eqb seen l).
Proof.
  induction l as [|x l IH]; simpl; intros seen; [constructor|].
  destruct (memb form_eqb x seen) eqn:M.
  - apply memb_In_form in M as (y & I & E). eapply F_again; eauto.
  - apply F_new; auto. intros y I. destruct (form_eqb y x) eqn:E; auto.
    assert (memb form_eqb x seen = true) by (apply memb_In_form; eauto). congruence.
Qed.
Lemma firsts_fun seen l out : firsts seen l out -> out = dedup_from form_eqb seen l.
Proof.
  induction 1 as [seen|seen x l out Hn F IH|seen x y l out I E F IH]; simpl; auto.
  - destruct (memb form_eqb x seen) eqn:M; [|congruence].
    apply memb_In_form in M as (y & I & E). rewrite Hn in E; congruence.
  - rewrite (proj2 (memb_In_form x seen)); eauto.
Qed.

(** dropping an element whose members are all there already *)
Lemma dedup_from_known seen l m :
  Forall (fun x => memb form_eqb x seen = true) l ->
  dedup_from form_eqb seen (l ++ m) = dedup_from form_eqb seen m.
Proof. induction 1; simpl; auto. now rewrite H. Qed.

Lemma leaves_eq c f : forall g, form_eqb f g = true ->
  Forall2 (fun a b => form_eqb a b = true) (leaves c f) (leaves c g).
Proof.
  induction f using form_ind'; intros g E; destruct g; try discriminate E;
    try (simpl; constructor; [exact E|constructor]).
  - simpl in *. destruct c as [|k'].
    + simpl. constructor; auto.
    + apply andb_true_iff in E as [K E]. apply bfun_eqb_eq in K. subst k0.
      destruct (bfun_eqb k' k) eqn:K; [|constructor; auto; simpl; rewrite (proj2 (bfun_eqb_eq k k)); auto].
      clear K. revert ops0 E. induction H; intros [|b m] E; simpl in *; try discriminate; auto.
      apply andb_true_iff in E as [E1 E2]. apply Forall2_app; auto.
  - simpl in *. destruct c as [k'|].
    + apply andb_true_iff in E as [K E]. apply bop_eqb_eq in K. subst k0.
      destruct (bop_eqb k' k) eqn:K; [|constructor; auto; simpl; rewrite (proj2 (bop_eqb_eq k k)); auto].
      clear K. revert ops0 E. induction H; intros [|b m] E; simpl in *; try discriminate; auto.
      apply andb_true_iff in E as [E1 E2]. apply Forall2_app; auto.
    + simpl. constructor; auto.
Qed.

Lemma memb_rev_app x l s : memb form_eqb x (rev l ++ s) = memb form_eqb x l || memb form_eqb x s.
Proof.
  rewrite memb_app. f_equal. unfold memb.
  induction l; simpl; auto. rewrite existsb_app, IHl. simpl. now rewrite orb_false_r, orb_comm.
Qed.

Lemma dedup_flat c ops : forall seen known,
  (forall y, In y seen -> Forall (fun x => memb form_eqb x known = true) (leaves c y)) ->
  dedup_from form_eqb known (flat_map (leaves c) (dedup_from form_eqb seen ops))
  = dedup_from form_eqb known (flat_map (leaves c) ops).
Proof.
  induction ops as [|x ops IH]; simpl; intros seen known K; auto.
  destruct (memb form_eqb x seen) eqn:M.
  - rewrite IH by auto. symmetry. apply dedup_from_known.
    apply memb_In_form in M as (y & I & E). apply K in I.
    pose proof (leaves_eq c y x E) as L. clear - I L. induction L; inversion I; subst; constructor; auto.
    rewrite <- (memb_cong _ form_eqb_equiv _ _ known H). auto.
  - simpl. rewrite !dedup_from_app by apply form_eqb_equiv. f_equal. apply IH.
    intros y [<-|I].
    + apply Forall_forall. intros z Z. rewrite memb_rev_app, (dedup_from_spec _ form_eqb_equiv).
      rewrite (In_memb _ form_eqb_equiv _ _ Z). reflexivity.
    + eapply Forall_impl; [|apply K, I]. intros z Z. simpl in Z.
      rewrite memb_rev_app, Z, orb_true_r. reflexivity.
Qed.

Definition node_of (k : bop) (l : list form) : form := match l with [x] => x | _ => FBin k l end.

Lemma leaves_nf k f : nf f -> k = OAnd \/ k = OOr ->
  leaves (CBin k) f = match f with FBin k' ops => if bop_eqb k k' then ops else [f] | _ => [f] end.
Proof.
  intros N K. destruct f; auto. simpl. destruct (bop_eqb k k0) eqn:B; auto.
  apply bop_eqb_eq in B. subst k0. simpl in N. destruct N as [_ N].
  apply flat_leaves_id. destruct K; subst; apply N.
Qed.

Lemma mk_bin_kept k ops : k = OAnd \/ k = OOr -> Forall built ops ->
  mk_bin k ops = node_of k (dedup form_eqb (flat_map (leaves (CBin k)) ops)).
Proof.
  intros K B. unfold dedup. rewrite <- (dedup_flat (CBin k) ops [] []) by (intros ? []).
  fold (dedup form_eqb ops).
  unfold mk_bin, mk_op. assert (M : metaclass (CBin k) = Some true) by (destruct K; subst; auto).
  rewrite M, simplify_spec. cbv iota.
  assert (B' : Forall built (dedup form_eqb ops)).
  { apply Forall_forall. intros x I. apply (dedup_In form_eqb) in I.
    rewrite Forall_forall in B. auto. }
  destruct (dedup form_eqb ops) as [|x [|y l]].
  - reflexivity.
  - simpl. rewrite app_nil_r. inversion B'; subst. apply built_nf in H1. rewrite (leaves_nf k x H1 K).
    destruct x; auto. simpl in H1. destruct H1 as [_ H1].
    destruct (bop_eqb k k0) eqn:Q; [|reflexivity]. apply bop_eqb_eq in Q. subst k0.
    assert (N : nf_node k ops0) by (destruct K; subst; exact H1). destruct N as (N1 & N2 & N3).
    change (dedup_from form_eqb [] ops0) with (dedup form_eqb ops0).
    rewrite (dedup_id _ form_eqb_equiv _ N2). destruct ops0 as [|a [|b m]]; [reflexivity| |reflexivity]. exfalso. apply N3. reflexivity.
  - unfold dedup. destruct (dedup_from _ _ _) as [|a [|b m]]; auto.
Qed.

Lemma mk_binfun_kept k ops : In k merging -> length ops <> 1 ->
  mk_binfun k ops = FBinFun k (dedup form_eqb (flat_map (leaves (CFun k)) ops)).
Proof.
  intros K L. unfold mk_binfun, mk_op.
  assert (M : metaclass (CFun k) = Some false)
    by (unfold merging in K; simpl in K; intuition (subst; auto)).
  rewrite M, simplify_spec. cbv iota. destruct ops as [|x [|y l]]; [auto|simpl in L; lia|].
  unfold dedup. destruct (dedup_from _ _ _) as [|a [|b m]]; auto.
Qed.

(** the same in the words of Spec_Ops.v *)
Lemma concat_members k ops ls : Forall2 (members k) ops ls -> concat ls = flat_map (leaves (CBin k)) ops.
Proof. induction 1; simpl; auto. apply members_fun in H. subst. now f_equal. Qed.
Lemma concat_fmembers k ops ls : Forall2 (fmembers k) ops ls -> concat ls = flat_map (leaves (CFun k)) ops.
Proof. induction 1; simpl; auto. apply fmembers_fun in H. subst. now f_equal. Qed.

Lemma bin_operands k ops ls l : k = OAnd \/ k = OOr -> Forall built ops ->
  Forall2 (members k) ops ls -> distinct_members (concat ls) l ->
  mk_bin k ops = match l with [x] => x | _ => FBin k l end.
Proof.
  intros K B M D. apply concat_members in M. rewrite M in D. apply firsts_fun in D. subst.
  now apply mk_bin_kept.
Qed.
Lemma bin_operands_exist k ops : exists ls l,
  Forall2 (members k) ops ls /\ distinct_members (concat ls) l.
Proof.
  exists (map (leaves (CBin k)) ops). eexists. split; [|apply firsts_dedup].
  apply Forall2_map_self, Forall_forall. intros. apply members_leaves.
Qed.
Lemma binfun_operands k ops ls l : In k merging -> length ops <> 1 ->
  Forall2 (fmembers k) ops ls -> distinct_members (concat ls) l ->
  mk_binfun k ops = FBinFun k l.
Proof.
  intros K B M D. apply concat_fmembers in M. rewrite M in D. apply firsts_fun in D. subst.
  now apply mk_binfun_kept.
Qed.
Lemma binfun_operands_exist k ops : exists ls l,
  Forall2 (fmembers k) ops ls /\ distinct_members (concat ls) l.
Proof.
  exists (map (leaves (CFun k)) ops). eexists. split; [|apply firsts_dedup].
  apply Forall2_map_self, Forall_forall. intros. apply fmembers_leaves.
Qed.
Lemma binfun_single k x : mk_binfun k [x] = FBinFun k [x].
Proof. destruct k; reflexivity. Qed.
Lemma other_operands : (forall k ops, k = OOneOf \/ k = OImply -> mk_bin k ops = FBin k ops) /\
  (forall k ops, ~ In k merging -> mk_binfun k ops = FBinFun k ops).
Proof.
  split; intros k ops K.
  - destruct K; subst; reflexivity.
  - destruct k; try reflexivity; exfalso; apply K; simpl; auto 10.
Qed.
