(** The BinaryOp constructors: flattening, deduplication, meaning, normal form. *)
From Coq Require Import String List Bool ZArith QArith Lia.
From Verif Require Import Py Names Logic Sem Py_facts Logic_facts.
Import ListNotations.
Open Scope string_scope.
Open Scope list_scope.
Close Scope Q_scope.

(** ** the stack loop computes: flatten, then keep first occurrences *)
Fixpoint leaves (c : opcls) (f : form) : list form :=
  match f with
  | FBin k ops => if match c with CBin k' => bop_eqb k' k | _ => false end
                  then flat_map (leaves c) ops else [f]
  | FBinFun k ops => if match c with CFun k' => bfun_eqb k' k | _ => false end
                     then flat_map (leaves c) ops else [f]
  | _ => [f]
  end.

Lemma leaves_ops_if c f :
  leaves c f = match ops_if c f with Some ops => flat_map (leaves c) ops | None => [f] end.
Proof. destruct c, f; simpl; auto. destruct (bop_eqb k k0); auto. destruct (bfun_eqb k k0); auto. Qed.

Lemma form_size_pos f : 1 <= form_size f.
Proof. destruct f; simpl; lia. Qed.
Lemma forms_size_app l m : forms_size (l ++ m) = forms_size l + forms_size m.
Proof. unfold forms_size. induction l; simpl; auto. rewrite IHl. lia. Qed.
Lemma ops_if_size c f ops : ops_if c f = Some ops -> form_size f = S (forms_size ops).
Proof.
  destruct c, f; simpl; try discriminate.
  - destruct (bop_eqb k k0); [intros [= <-]; auto|discriminate].
  - destruct (bfun_eqb k k0); [intros [= <-]; auto|discriminate].
Qed.

Lemma flatten_loop_spec c fuel : forall stack seen out,
  forms_size stack < fuel ->
  flatten_loop fuel c stack seen out
  = out ++ dedup_from form_eqb seen (flat_map (leaves c) stack).
Proof.
  induction fuel; intros stack seen out Hf; [lia|].
  destruct stack as [|x st]; simpl; [now rewrite app_nil_r|].
  pose proof (form_size_pos x). change (form_size x + forms_size st < S fuel) in Hf.
  rewrite leaves_ops_if. destruct (ops_if c x) as [ops|] eqn:O.
  - apply ops_if_size in O. rewrite IHfuel by (rewrite forms_size_app; lia).
    now rewrite flat_map_app.
  - simpl. destruct (memb form_eqb x seen) eqn:M.
    + rewrite IHfuel by lia. auto.
    + rewrite IHfuel by lia. now rewrite <- app_assoc.
Qed.

Lemma simplify_spec c idem ops :
  simplify_operands c idem ops
  = match (if idem then dedup form_eqb ops else ops) with
    | [] => [] | [x] => [x]
    | old => dedup form_eqb (flat_map (leaves c) old)
    end.
Proof.
  unfold simplify_operands. destruct (if idem then _ else _) as [|x [|y l]]; auto.
  rewrite flatten_loop_spec by lia. reflexivity.
Qed.

(** ** valuations that respect [==] *)
Section Valuation.
  Variable V : form -> Prop.
  Hypothesis V_eq : forall f g, form_eqb f g = true -> V f <-> V g.

  Lemma Forall_dedup_from l : forall seen, Forall V seen ->
    (Forall V (dedup_from form_eqb seen l) <-> Forall V l).
  Proof.
    induction l as [|a l IH]; simpl; intros seen Hs; [tauto|].
    destruct (memb form_eqb a seen) eqn:M.
    - rewrite IH by auto. split; intros F; [|inversion F; auto].
      constructor; auto. apply memb_In in M as (y & Hy & E).
      apply (V_eq _ _ E). rewrite Forall_forall in Hs. auto.
    - split; intros F; inversion F; subst; constructor; auto.
      + apply (IH (a :: seen)); auto.
      + apply IH; auto.
  Qed.
  Lemma Forall_dedup l : Forall V (dedup form_eqb l) <-> Forall V l.
  Proof. now apply Forall_dedup_from. Qed.

  Lemma Exists_dedup_from l : forall seen, 
    (Exists V (dedup_from form_eqb seen l) \/ Exists V seen <-> Exists V l \/ Exists V seen).
  Proof.
    induction l as [|a l IH]; simpl; intros seen; [tauto|].
    destruct (memb form_eqb a seen) eqn:M.
    - rewrite IH. rewrite Exists_cons. split; [tauto|]. intros [[Ha|]|]; auto.
      apply memb_In in M as (y & Hy & E). right. apply Exists_exists. exists y. split; auto.
      now apply (V_eq _ _ E).
    - specialize (IH (a :: seen)). rewrite !Exists_cons in *. tauto.
  Qed.
  Lemma Exists_dedup l : Exists V (dedup form_eqb l) <-> Exists V l.
  Proof.
    pose proof (Exists_dedup_from l []) as H. rewrite !Exists_nil in H. unfold dedup. tauto.
  Qed.

  Lemma and_leaves : (forall ops, V (FBin OAnd ops) <-> Forall V ops) ->
    forall f, Forall V (leaves (CBin OAnd) f) <-> V f.
  Proof.
    intros VA. induction f using form_ind'; simpl; try (rewrite Forall_cons_iff; split;
      [now intros [? _] | intros; split; auto]).
    destruct (match k with OAnd => true | _ => false end) eqn:K.
    - destruct k; try discriminate. simpl. rewrite VA.
      induction H; simpl; [split; auto|]. rewrite Forall_app, H, IHForall, Forall_cons_iff. tauto.
    - destruct k; simpl; try discriminate; rewrite Forall_cons_iff; split; try tauto; auto.
  Qed.

  Theorem mk_and_V : (forall ops, V (FBin OAnd ops) <-> Forall V ops) ->
    forall ops, V (mk_and ops) <-> Forall V ops.
  Proof.
    intros VA ops. unfold mk_and, mk_op. simpl. rewrite simplify_spec. cbv iota.
    rewrite <- (Forall_dedup ops). destruct (dedup form_eqb ops) as [|x [|y l]].
    - apply VA.
    - rewrite Forall_cons_iff. split; [intros; split; auto|tauto].
    - remember (x :: y :: l) as old.
      assert (E : Forall V (dedup form_eqb (flat_map (leaves (CBin OAnd)) old)) <-> Forall V old).
      { rewrite Forall_dedup. clear -VA. induction old; simpl; [split; auto|].
        rewrite Forall_app, and_leaves, IHold, Forall_cons_iff by auto. tauto. }
      rewrite <- E. destruct (dedup form_eqb (flat_map _ old)) as [|a [|b m]]; try apply VA.
      rewrite Forall_cons_iff. split; [intros; split; auto|tauto].
  Qed.

  Lemma or_leaves : (forall ops, V (FBin OOr ops) <-> Exists V ops) ->
    forall f, Exists V (leaves (CBin OOr) f) <-> V f.
  Proof.
    intros VA.
    assert (S1 : forall f, Exists V [f] <-> V f).
    { intros. rewrite Exists_cons, Exists_nil. tauto. }
    induction f using form_ind'; simpl; try apply S1.
    destruct k; simpl; try apply S1. rewrite VA.
    induction H; simpl; [tauto|]. rewrite Exists_app, H, IHForall, Exists_cons. tauto.
  Qed.

  Theorem mk_or_V : (forall ops, V (FBin OOr ops) <-> Exists V ops) ->
    forall ops, V (mk_or ops) <-> Exists V ops.
  Proof.
    intros VA ops. unfold mk_or, mk_op. simpl. rewrite simplify_spec. cbv iota.
    rewrite <- (Exists_dedup ops). destruct (dedup form_eqb ops) as [|x [|y l]].
    - apply VA.
    - rewrite Exists_cons, Exists_nil. tauto.
    - remember (x :: y :: l) as old.
      assert (E : Exists V (dedup form_eqb (flat_map (leaves (CBin OOr)) old)) <-> Exists V old).
      { rewrite Exists_dedup. clear -VA. induction old; simpl; [tauto|].
        rewrite Exists_app, or_leaves, IHold, Exists_cons by auto. tauto. }
      rewrite <- E. destruct (dedup form_eqb (flat_map _ old)) as [|a [|b m]]; try apply VA.
      rewrite Exists_cons, Exists_nil. tauto.
  Qed.
End Valuation.

(** ** the semantics of Sem.v respects [==] *)
Section SemEq.
  Variable I : interp.
  Lemma den_eq e t u : term_eqb t u = true -> den I e t = den I e u.
  Proof.
    destruct t, u; simpl; try discriminate.
    - intros E. apply String.eqb_eq in E. now subst.
    - unfold var_eqb. intros. btrue. apply String.eqb_eq in H. now rewrite H.
  Qed.
  Lemma dens_eq e ts : forall us, list_eqb term_eqb ts us = true -> map (den I e) ts = map (den I e) us.
  Proof.
    induction ts; destruct us; simpl; try discriminate; auto. intros. btrue.
    f_equal; auto. now apply den_eq.
  Qed.
  Lemma num_q_eq a b : num_eqb a b = true -> (num_q a == num_q b)%Q.
  Proof.
    destruct a, b; cbn [num_eqb num_value]; unfold num_q; cbn [num_value]; try discriminate;
      intros; try (now apply Qeq_bool_iff); reflexivity.
  Qed.

  Lemma value_eq f : forall g e, form_eqb f g = true -> (value I e f == value I e g)%Q.
  Proof.
    induction f using form_ind'; destruct g; intros e E; try discriminate; try reflexivity.
    - simpl in E |- *. btrue. apply String.eqb_eq in H. subst. now rewrite (dens_eq e _ _ H0).
    - simpl in *. now apply num_q_eq.
    - simpl in E. btrue.
      assert (F : Forall2 (fun x y => value I e x == value I e y)%Q ops ops0).
      { clear -H H1. revert ops0 H1. induction H; destruct ops0; simpl; try discriminate; auto.
        intros. btrue. constructor; auto. }
      clear H H1. destruct k0; try reflexivity.
      + destruct F as [|x y l m E F]; [reflexivity|].
        destruct F as [|x1 y1 l m E1 F]; [simpl; now rewrite E|].
        simpl. assert (A : (value I e x - value I e x1 == value I e y - value I e y1)%Q)
          by now rewrite E, E1.
        revert A. generalize (value I e x - value I e x1)%Q (value I e y - value I e y1)%Q.
        induction F; simpl; intros; auto. apply IHF. now rewrite A, H.
      + simpl. induction F; [reflexivity|]. simpl. now rewrite H, IHF.
      + simpl. induction F; [reflexivity|]. simpl. now rewrite H, IHF.
      + destruct F as [|x y l m E F]; [reflexivity|]. simpl.
        revert E. generalize (value I e x) (value I e y).
        induction F; simpl; intros; auto. apply IHF. now rewrite E, H.
  Qed.

  Lemma values_eq e ops : forall ops0, list_eqb form_eqb ops ops0 = true ->
    Forall2 (fun x y => value I e x == value I e y)%Q ops ops0.
  Proof.
    induction ops; destruct ops0; simpl; try discriminate; auto.
    intros. btrue. constructor; auto. now apply value_eq.
  Qed.

  Lemma fits_eq v w o : var_eqb v w = true -> fits I v o -> fits I w o.
  Proof.
    unfold var_eqb, fits. intros. btrue.
    rewrite (set_eqb_spec _ string_eqb_equiv) in H1.
    assert (M : forall x, In x (v_tags v) <-> In x (v_tags w)).
    { intros x. rewrite <- !memb_string_In. now rewrite H1. }
    destruct H0 as [H0|(g & Hg & Ht)].
    - left. rewrite H0 in M. destruct (v_tags w) as [|x l]; auto.
      destruct (proj2 (M x)); simpl; auto.
    - right. exists g. split; auto. now apply M.
  Qed.
  Lemma extends_eq vs ws e e' : set_eqb var_eqb vs ws = true -> extends I vs e e' -> extends I ws e e'.
  Proof.
    intros E [H1 H2]. rewrite (set_eqb_spec _ var_eqb_equiv) in E. split.
    - intros n Hn. apply H1. intros Hi. apply Hn. apply in_map_iff in Hi as (v & <- & Hv).
      apply (In_memb _ var_eqb_equiv) in Hv. rewrite E in Hv. apply memb_In in Hv as (w & Hw & Q).
      unfold var_eqb in Q. btrue. apply String.eqb_eq in H. rewrite H. now apply in_map.
    - intros w Hw. apply (In_memb _ var_eqb_equiv) in Hw. rewrite <- E in Hw.
      apply memb_In in Hw as (v & Hv & Q). rewrite (eqv_sym _ var_eqb_equiv) in Q.
      apply (fits_eq _ _ _ Q). pose proof (H2 _ Hv) as F.
      unfold var_eqb in Q. btrue. apply String.eqb_eq in H. now rewrite <- H.
  Qed.

  Lemma holds_eq f : forall g e, form_eqb f g = true -> (holds I e f <-> holds I e g).
  Proof.
    pose proof (set_eqb_equiv _ var_eqb_equiv) as EV.
    induction f using form_ind'; destruct g; intros e E; try discriminate.
    - simpl in *. btrue. apply String.eqb_eq in H. subst. now rewrite (dens_eq e _ _ H0).
    - simpl in *. btrue. now rewrite (den_eq e _ _ H), (den_eq e _ _ H0).
    - reflexivity.
    - reflexivity.
    - simpl in E. btrue. pose proof (values_eq e _ _ H1) as F. clear H H1.
      destruct k0; try reflexivity.
      + simpl. assert (forall l m, Forall2 (fun x y => value I e x == value I e y)%Q l m ->
           forall a, In a (map (value I e) m) -> exists b, In b (map (value I e) l) /\ (a == b)%Q).
        { induction 1; simpl; [tauto|]. intros a [<-|Ha]; [eauto|].
          - exists (value I e x). split; auto. now symmetry.
          - destruct (IHForall2 a Ha) as (b & ? & ?). eauto. }
        assert (F' : Forall2 (fun x y => value I e x == value I e y)%Q ops0 ops).
        { clear -F. induction F; constructor; auto. now symmetry. }
        split; intros HH a b Ha Hb.
        * destruct (H _ _ F a Ha) as (a' & ? & ->), (H _ _ F b Hb) as (b' & ? & ->). auto.
        * destruct (H _ _ F' a Ha) as (a' & ? & ->), (H _ _ F' b Hb) as (b' & ? & ->). auto.
      + destruct F as [|? ? ? ? E1 [|? ? ? ? E2 [|]]]; simpl; try reflexivity. now rewrite E1, E2.
      + destruct F as [|? ? ? ? E1 [|? ? ? ? E2 [|]]]; simpl; try reflexivity. now rewrite E1, E2.
      + destruct F as [|? ? ? ? E1 [|? ? ? ? E2 [|]]]; simpl; try reflexivity. now rewrite E1, E2.
      + destruct F as [|? ? ? ? E1 [|? ? ? ? E2 [|]]]; simpl; try reflexivity. now rewrite E1, E2.
    - simpl in E. btrue.
      assert (F : Forall2 (fun x y => holds I e x <-> holds I e y) ops ops0).
      { clear -H H1. revert ops0 H1. induction H; destruct ops0; simpl; try discriminate; auto.
        intros. btrue. constructor; auto. }
      clear H H1. destruct k0.
      + simpl. induction F; simpl; tauto.
      + simpl. induction F; simpl; tauto.
      + reflexivity.
      + destruct F as [|? ? ? ? E1 [|? ? ? ? E2 [|]]]; simpl; try reflexivity. now rewrite E1, E2.
    - simpl in *. now rewrite (IHf g).
    - simpl in E. btrue.
      assert (X : forall e', extends I vs e e' <-> extends I vs0 e e').
      { intros e'. split; apply extends_eq; auto. now rewrite (eqv_sym _ EV). }
      destruct q0; simpl.
      + split; intros HH e' He; apply X in He; apply HH in He; now apply (IHf g e' H0).
      + split; intros (e' & He & HH); exists e'; (split; [now apply X|now apply (IHf g e' H0)]).
    - reflexivity.
    - reflexivity.
  Qed.

  Lemma holds_and e ops : holds I e (FBin OAnd ops) <-> Forall (holds I e) ops.
  Proof. simpl. apply fold_and_Forall. Qed.
  Lemma holds_or e ops : holds I e (FBin OOr ops) <-> Exists (holds I e) ops.
  Proof.
    simpl. induction ops; simpl. now rewrite Exists_nil. rewrite Exists_cons, IHops. tauto.
  Qed.

  Lemma holds_mk_and e ops : holds I e (mk_and ops) <-> Forall (holds I e) ops.
  Proof. apply mk_and_V; [intros; now apply holds_eq|apply holds_and]. Qed.
  Lemma holds_mk_or e ops : holds I e (mk_or ops) <-> Exists (holds I e) ops.
  Proof. apply mk_or_V; [intros; now apply holds_eq|apply holds_or]. Qed.
End SemEq.
