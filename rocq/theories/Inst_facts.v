(** Instantiation: meaning, success, groundness. *)
From Coq Require Import String List Bool ZArith QArith Lia.
From Verif Require Import Spec_Core Py Names Logic Validation Sem Spec Built
  Py_facts Logic_facts Ops_facts Built_facts Names_facts.
Import ListNotations.
Open Scope string_scope.
Open Scope list_scope.
Close Scope Q_scope.

Lemma inst_den I m (e : env I) t :
  (forall v, t = TVar v -> forall k u, In (k, u) m -> t_name k = v_name v -> term_eqb (TVar v) k = true) ->
  den I (bind_env m e) t = den I e (inst_term m t).
Proof.
  destruct t as [n g|v]; simpl; auto. intros H. specialize (H v eq_refl). unfold bind_env.
  assert (E : image m (v_name v) = dict_get term_eqb (TVar v) m).
  { induction m as [|(k, u) m IH]; simpl; auto.
    destruct (String.eqb_spec (t_name k) (v_name v)) as [E|E].
    - assert (T : term_eqb (TVar v) k = true) by (apply (H k u); auto; now left).
      simpl in T. now rewrite T.
    - assert (N : term_eqb (TVar v) k = false).
      { destruct k as [|w]; simpl; auto. unfold var_eqb. simpl in E.
        destruct (String.eqb_spec (v_name v) (v_name w)); auto. congruence. }
      simpl in N. rewrite N. apply IH. intros k0 u0 H0. apply (H k0 u0). now right. }
  rewrite E. destruct (dict_get term_eqb (TVar v) m); auto.
Qed.

Lemma inst_dens I m (e : env I) ts :
  (forall v, In (TVar v) ts -> forall k u, In (k, u) m -> t_name k = v_name v -> term_eqb (TVar v) k = true) ->
  map (den I (bind_env m e)) ts = map (den I e) (map (inst_term m) ts).
Proof.
  intros H. rewrite map_map. apply map_ext_in. intros t Ht. apply inst_den. intros v ->. now apply H.
Qed.

(** numeric operators as functions of the values *)
Definition numop (k : bfun) (l : list Q) : Q :=
  match k, l with
  | BPlus, _ => fold_right Qplus 0%Q l
  | BTimes, _ => fold_right Qmult 1%Q l
  | BMinus, [] => 0%Q
  | BMinus, [x] => (- x)%Q
  | BMinus, x :: xs => fold_left Qminus xs x
  | BDivide, [] => 0%Q
  | BDivide, x :: xs => fold_left Qdiv xs x
  | _, _ => 0%Q
  end.
Lemma fold_left_map' {A B C} (f : A -> B -> A) (g : C -> B) l : forall a,
  fold_left f (map g l) a = fold_left (fun x y => f x (g y)) l a.
Proof. induction l; simpl; auto. Qed.
Lemma value_binfun I (e : env I) k ops : value I e (FBinFun k ops) = numop k (map (value I e) ops).
Proof.
  assert (R : forall (f : Q -> Q -> Q) z, fold_right f z (map (value I e) ops)
             = fold_right (fun g q => f (value I e g) q) z ops).
  { intros. induction ops; simpl; auto. now rewrite IHops. }
  destruct k; try reflexivity.
  - destruct ops as [|x [|y l]]; auto. simpl. rewrite fold_left_map'. reflexivity.
  - simpl. now rewrite R.
  - simpl. now rewrite R.
  - destruct ops as [|x l]; auto. simpl. rewrite fold_left_map'. reflexivity.
Qed.

Lemma within_ops_f {k ops g f} : In g ops -> within f g -> within f (FBinFun k ops).
Proof. intros. eapply W_binfun; eauto. Qed.
Lemma within_ops_b {k ops g f} : In g ops -> within f g -> within f (FBin k ops).
Proof. intros. eapply W_bin; eauto. Qed.

Lemma inst_is_num m f : forall g, is_num f -> instantiate m f = Ok g -> is_num g.
Proof.
  induction f using form_ind'; intros g N E; inversion N; subst; cbn [instantiate] in E.
  - apply mk_numfun_Ok in E. subst. constructor.
  - inversion E. constructor.
  - apply bind_Ok in E as (ops' & M & E). inversion E; subst. apply mapR_Ok in M.
    apply (mk_op_P is_num (CFun k)).
    + intros f l O. apply ops_if_raw in O. subst. simpl. inversion 1; auto.
    + intros l F. simpl. now constructor.
    + clear E N. induction M; auto. inversion H; inversion H3; subst. constructor; auto.
Qed.

Section Semantics.
  Variable I : interp.
  Variable m : mapping.
  Implicit Types e : env I.

  Lemma value_inst f : forall e g, is_num f -> names_agree m f -> arith_kept m f ->
    instantiate m f = Ok g -> value I e g = value I (bind_env m e) f.
  Proof.
    induction f using form_ind'; intros e g N A K E; inversion N; subst.
    - cbn [instantiate] in E. apply mk_numfun_Ok in E. subst. simpl. f_equal. symmetry. apply inst_dens.
      intros v Hv. apply A. now constructor.
    - inversion E. reflexivity.
    - cbn [instantiate] in E. apply bind_Ok in E as (ops' & M & E). inversion E; subst. clear E.
      destruct (K k ops ops' (W_self _) H2 M) as [D F].
      rewrite mk_binfun_id by auto. rewrite !value_binfun. f_equal.
      assert (A' : forall f, In f ops -> names_agree m f).
      { intros f Hf v Hv. apply A. eapply A_binfun; eauto. }
      assert (K' : forall f, In f ops -> arith_kept m f).
      { intros f Hf k' o o' W. apply K. eapply W_binfun; eauto. }
      apply mapR_Ok in M. clear D F A K N. induction M as [|x y l l' Hx M IH]; simpl; auto.
      inversion H; inversion H3; subst. f_equal; auto.
      + apply H4; auto. apply A'; now left. apply K'; now left.
      + apply IH; auto; intros; [apply A'|apply K']; now right.
  Qed.

  Lemma holds_env_ext f : forall e e', (forall n, e n = e' n) -> (holds I e f <-> holds I e' f).
  Proof.
    assert (D : forall e e', (forall n, e n = e' n) -> forall t, den I e t = den I e' t).
    { intros e e' H [n g|v]; simpl; auto. }
    assert (DS : forall e e', (forall n, e n = e' n) -> forall ts, map (den I e) ts = map (den I e') ts).
    { intros. apply map_ext. now apply D. }
    assert (V : forall f e e', (forall n, e n = e' n) -> value I e f = value I e' f).
    { clear f. induction f using form_ind'; intros e e' H0; try reflexivity.
      - simpl. now rewrite (DS e e' H0).
      - rewrite !value_binfun. f_equal. apply map_ext_in. intros f Hf. rewrite Forall_forall in H. auto. }
    assert (X : forall vs e e' e2, (forall n, e n = e' n) -> extends I vs e e2 -> extends I vs e' e2).
    { intros vs e e' e2 H [H1 H2]. split; auto. intros. rewrite <- H. auto. }
    induction f using form_ind'; intros e e' H0; try (simpl; tauto).
    - simpl. now rewrite (DS e e' H0).
    - simpl. now rewrite !(D e e' H0).
    - destruct k; try (simpl; tauto).
      + simpl. assert (map (value I e) ops = map (value I e') ops) as ->; [|tauto].
        apply map_ext. intros. now apply V.
      + destruct ops as [|a [|b [|]]]; simpl; try tauto. now rewrite !(V _ e e' H0).
      + destruct ops as [|a [|b [|]]]; simpl; try tauto. now rewrite !(V _ e e' H0).
      + destruct ops as [|a [|b [|]]]; simpl; try tauto. now rewrite !(V _ e e' H0).
      + destruct ops as [|a [|b [|]]]; simpl; try tauto. now rewrite !(V _ e e' H0).
    - destruct k; try (simpl; tauto).
      + rewrite !holds_and. rewrite !Forall_forall. rewrite Forall_forall in H.
        split; intros K f Hf; apply (H f Hf e e' H0); auto.
      + rewrite !holds_or. rewrite !Exists_exists. rewrite Forall_forall in H.
        split; intros (f & Hf & K); exists f; split; auto; apply (H f Hf e e' H0); auto.
      + destruct ops as [|a [|b [|]]]; simpl; try tauto. inversion H; subst. inversion H4; subst.
        rewrite (H3 e e' H0), (H5 e e' H0). tauto.
    - simpl. now rewrite (IHf e e' H0).
    - assert (H0' : forall n, e' n = e n) by (intros; now symmetry).
      destruct q; simpl.
      + split; intros K e2 He; apply K; eapply X; eauto.
      + split; intros (e2 & He & K); exists e2; split; auto; eapply X; eauto.
  Qed.

  Lemma bind_extends vs e e' :
    (forall v, In v vs -> forall k u, In (k, u) m ->
       t_name k <> v_name v /\ (forall w, u = TVar w -> v_name w <> v_name v)) ->
    extends I vs e e' -> extends I vs (bind_env m e) (bind_env m e').
  Proof.
    intros NC [H1 H2].
    assert (IM : forall n u, image m n = Some u -> exists k, In (k, u) m /\ t_name k = n).
    { clear. intros n u. induction m as [|(k, u') m' IH]; simpl; [discriminate|].
      destruct (String.eqb_spec (t_name k) n).
      - intros [= <-]. eauto.
      - intros H. destruct (IH H) as (k' & Hk & ?). eauto. }
    split.
    - intros n Hn. unfold bind_env. destruct (image m n) as [u|] eqn:E; auto.
      apply IM in E as (k & Hk & _). destruct u as [c g|w]; simpl; auto.
      apply H1. intros Hw. apply in_map_iff in Hw as (v & Ev & Hv).
      destruct (NC v Hv k _ Hk) as [_ X]. apply (X w eq_refl). auto.
    - intros v Hv. unfold bind_env. destruct (image m (v_name v)) as [u|] eqn:E; auto.
      apply IM in E as (k & Hk & Ek). destruct (NC v Hv k _ Hk) as [X _]. congruence.
  Qed.
  Lemma extends_bind vs e e2 :
    (forall v, In v vs -> forall k u, In (k, u) m ->
       t_name k <> v_name v /\ (forall w, u = TVar w -> v_name w <> v_name v)) ->
    extends I vs (bind_env m e) e2 ->
    exists e', extends I vs e e' /\ forall n, bind_env m e' n = e2 n.
  Proof.
    intros NC [H1 H2].
    set (e' := fun n => if memb String.eqb n (map v_name vs) then e2 n else e n).
    assert (X : extends I vs e e').
    { split.
      - intros n Hn. unfold e'. apply memb_string_not_In in Hn. now rewrite Hn.
      - intros v Hv. unfold e'. rewrite (proj2 (memb_string_In _ _)) by now apply in_map. auto. }
    exists e'. split; auto. intros n.
    destruct (memb String.eqb n (map v_name vs)) eqn:M.
    - assert (E : image m n = None).
      { apply memb_string_In, in_map_iff in M as (v & <- & Hv). specialize (NC v Hv). clear -NC.
        induction m as [|(k, u) m' IH]; simpl; auto. destruct (String.eqb_spec (t_name k) (v_name v)).
        - destruct (NC k u); [now left|contradiction].
        - apply IH. intros. apply (NC k0 u0). now right. }
      unfold bind_env. rewrite E. unfold e'. now rewrite M.
    - apply memb_string_not_In in M. pose proof (bind_extends vs e e' NC X) as [B _].
      rewrite (B n M). symmetry. auto.
  Qed.

  Lemma holds_equal_raw e ops ops' :
    (forall x, In x ops -> exists y, In y ops' /\ (value I e x == value I e y)%Q) ->
    (forall x, In x ops' -> exists y, In y ops /\ (value I e x == value I e y)%Q) ->
    (holds I e (FBinFun BEqual ops) <-> holds I e (FBinFun BEqual ops')).
  Proof.
    simpl. intros H1 H2. split; intros H a b Ha Hb.
    - apply in_map_iff in Ha as (x & <- & Hx), Hb as (y & <- & Hy).
      destruct (H2 _ Hx) as (x' & Hx' & ->), (H2 _ Hy) as (y' & Hy' & ->). apply H; now apply in_map.
    - apply in_map_iff in Ha as (x & <- & Hx), Hb as (y & <- & Hy).
      destruct (H1 _ Hx) as (x' & Hx' & ->), (H1 _ Hy) as (y' & Hy' & ->). apply H; now apply in_map.
  Qed.
  Lemma holds_mk_equal e ops : Forall is_num ops ->
    (holds I e (mk_binfun BEqual ops) <-> holds I e (FBinFun BEqual ops)).
  Proof.
    intros N. unfold mk_binfun, mk_op. simpl metaclass. cbv iota. rewrite simplify_spec. cbv iota.
    destruct ops as [|x [|y l]]; try reflexivity.
    remember (x :: y :: l) as ops. clear Heqops x y l.
    rewrite flat_leaves_fid.
    2:{ eapply Forall_impl; [|exact N]. intros f Hf. inversion Hf; subst; simpl; auto.
        destruct H as [->|[->|[->| ->]]]; reflexivity. }
    assert (E : holds I e (raw_node (CFun BEqual) (dedup form_eqb ops)) <-> holds I e (FBinFun BEqual ops)).
    { apply holds_equal_raw.
      - intros z Hz. apply dedup_In in Hz. exists z. split; auto. reflexivity.
      - intros z Hz. assert (M : memb form_eqb z (dedup form_eqb ops) = true).
        { rewrite (memb_dedup _ form_eqb_equiv). now apply (In_memb _ form_eqb_equiv). }
        apply memb_In in M as (w & Hw & Q). exists w. split; auto. now apply value_eq. }
    destruct (dedup form_eqb ops) as [|a [|b l]]; exact E.
  Qed.

  Lemma extends_dedup vs e e' : extends I (dedup var_eqb vs) e e' <-> extends I vs e e'.
  Proof.
    pose proof (dedup_set_eqb _ var_eqb_equiv vs) as S.
    split; apply extends_eq; auto. now rewrite (eqv_sym _ (set_eqb_equiv _ var_eqb_equiv)).
  Qed.

  Lemma holds_inst f : forall e g, is_cond f -> names_agree m f -> no_capture m f -> arith_kept m f ->
    instantiate m f = Ok g -> (holds I e g <-> holds I (bind_env m e) f).
  Proof.
    induction f using form_ind'; intros e g C A NC K E; inversion C; subst; cbn [instantiate] in E.
    - apply mk_pred_Ok in E. subst. simpl. rewrite <- inst_dens; [tauto|].
      intros v Hv. apply A. now constructor.
    - apply mk_eq_Ok in E. subst. simpl.
      rewrite <- !inst_den; [tauto| |]; intros v ->; apply A; constructor.
    - apply bind_Ok in E as (ops' & M & E). inversion E; subst. clear E.
      assert (A' : forall f, In f ops -> names_agree m f).
      { intros f Hf v Hv. apply A. eapply A_binfun; eauto. }
      assert (K' : forall f, In f ops -> arith_kept m f).
      { intros f Hf k' o o' W. apply K. eapply W_binfun; eauto. }
      apply mapR_Ok in M.
      assert (V : map (value I e) ops' = map (value I (bind_env m e)) ops).
      { clear C A NC K H. induction M as [|x y l l' Hx M IH]; simpl; auto.
        inversion H3; subst. f_equal.
        - apply value_inst; auto. apply A'; now left. apply K'; now left.
        - apply IH; auto; intros; [apply A'|apply K']; now right. }
      assert (NU : Forall is_num ops').
      { clear -M H3. induction M; auto. inversion H3; subst. constructor; auto. eapply inst_is_num; eauto. }
      assert (B2 : forall j, holds I e (FBinFun j ops') <-> holds I (bind_env m e) (FBinFun j ops)).
      { intros j. destruct j; try (simpl; tauto).
        - simpl. now rewrite V.
        - destruct ops as [|a [|b [|]]], ops' as [|a' [|b' [|]]]; try discriminate; simpl; try tauto.
          simpl in V. injection V as -> ->. tauto.
        - destruct ops as [|a [|b [|]]], ops' as [|a' [|b' [|]]]; try discriminate; simpl; try tauto.
          simpl in V. injection V as -> ->. tauto.
        - destruct ops as [|a [|b [|]]], ops' as [|a' [|b' [|]]]; try discriminate; simpl; try tauto.
          simpl in V. injection V as -> ->. tauto.
        - destruct ops as [|a [|b [|]]], ops' as [|a' [|b' [|]]]; try discriminate; simpl; try tauto.
          simpl in V. injection V as -> ->. tauto. }
      destruct H2 as [->|[->|[->|[->| ->]]]]; try apply B2.
      rewrite holds_mk_equal by auto. apply B2.
    - apply bind_Ok in E as (ops' & M & E). inversion E; subst. clear E. apply mapR_Ok in M.
      assert (F : Forall2 (fun g f => holds I e g <-> holds I (bind_env m e) f) ops' ops).
      { assert (A' : forall f, In f ops -> names_agree m f).
        { intros f Hf v Hv. apply A. eapply A_bin; eauto. }
        assert (NC' : forall f, In f ops -> no_capture m f).
        { intros f Hf v Hv. apply NC. eapply V_bin; eauto. }
        assert (K' : forall f, In f ops -> arith_kept m f).
        { intros f Hf k' o o' W. apply K. eapply W_bin; eauto. }
        clear C A NC K. induction M as [|x y l l' Hx M IH]; auto.
        inversion H; inversion H3; subst. constructor.
        - apply H4; auto. apply A'; now left. apply NC'; now left. apply K'; now left.
        - apply IH; auto; intros; [apply A'|apply NC'|apply K']; now right. }
      destruct k.
      + change (mk_bin OAnd ops') with (mk_and ops'). rewrite holds_mk_and, holds_and.
        clear -F. induction F; split; intros X; auto; inversion X; subst; constructor; tauto.
      + change (mk_bin OOr ops') with (mk_or ops'). rewrite holds_mk_or, holds_or.
        clear -F. induction F; [split; intros X; inversion X|]. rewrite !Exists_cons. tauto.
      + congruence.
      + change (mk_bin OImply ops') with (FBin OImply ops').
        destruct F as [|? ? ? ? E1 [|? ? ? ? E2 [|]]]; simpl; try tauto.
    - apply bind_Ok in E as (g' & M & E). inversion E; subst. clear E. simpl.
      rewrite (IHf e g'); auto; try tauto.
      + intros v Hv. apply A. now constructor.
      + intros v Hv. apply NC. now constructor.
      + intros k' o o' W. apply K. now constructor.
    - apply bind_Ok in E as (g' & M & E). inversion E; subst. clear E. unfold mk_quant.
      assert (IH : forall e, holds I e g' <-> holds I (bind_env m e) f).
      { intros e0. apply IHf; auto.
        + intros v Hv. apply A. now constructor.
        + intros v Hv. apply NC. now apply V_quant_in.
        + intros k' o o' W. apply K. now constructor. }
      assert (NV : forall v, In v vs -> forall k u, In (k, u) m ->
         t_name k <> v_name v /\ (forall w, u = TVar w -> v_name w <> v_name v)).
      { intros v Hv. apply NC. now constructor. }
      destruct q; simpl.
      + split.
        * intros H e2 X. destruct (extends_bind vs e e2 NV X) as (e' & X' & EQ).
          apply extends_dedup in X'. apply H, IH in X'.
          now apply (holds_env_ext f _ _ EQ).
        * intros H e' X. apply IH, H. apply bind_extends; auto. now apply extends_dedup.
      + split.
        * intros (e' & X & H). exists (bind_env m e'). split; [|now apply IH].
          apply bind_extends; auto. now apply extends_dedup.
        * intros (e2 & X & H). destruct (extends_bind vs e e2 NV X) as (e' & X' & EQ).
          exists e'. split; [now apply extends_dedup|]. apply IH. now apply (holds_env_ext f _ _ EQ).
  Qed.
End Semantics.

(** ** arguments of an instantiated formula *)
Lemma argument_raw c t ops : argument t (raw_node c ops) <-> exists f, In f ops /\ argument t f.
Proof.
  destruct c; simpl; split.
  - inversion 1; subst. eauto.
  - intros (f & Hf & H). eapply A_bin; eauto.
  - inversion 1; subst. eauto.
  - intros (f & Hf & H). eapply A_binfun; eauto.
Qed.
Lemma argument_mk_op c ops t : argument t (mk_op c ops) -> exists f, In f ops /\ argument t f.
Proof.
  intros H. assert (P : (fun f => argument t f -> exists g, In g ops /\ argument t g) (mk_op c ops)).
  { apply mk_op_P.
    - intros f l O Hf. apply ops_if_raw in O. subst. apply Forall_forall. intros g Hg Ag.
      apply Hf. apply argument_raw. eauto.
    - intros l F A. apply argument_raw in A as (f & Hf & A). rewrite Forall_forall in F. eauto.
    - apply Forall_forall. eauto. }
  auto.
Qed.

Lemma argument_inst m f : forall g t, instantiate m f = Ok g -> argument t g ->
  exists t0, argument t0 f /\ t = inst_term m t0.
Proof.
  assert (L : forall ops, Forall (fun f => forall g t, instantiate m f = Ok g -> argument t g ->
      exists t0, argument t0 f /\ t = inst_term m t0) ops ->
    forall ops' g t, mapR (instantiate m) ops = Ok ops' -> In g ops' -> argument t g ->
    exists f t0, In f ops /\ argument t0 f /\ t = inst_term m t0).
  { intros ops F ops' g t M Hg A. apply mapR_Ok in M. induction M as [|x y l l' Hx M IH]; [destruct Hg|].
    inversion F; subst. destruct Hg as [->|Hg].
    - destruct (H1 _ _ Hx A) as (t0 & ? & ?). exists x, t0. simpl. auto.
    - destruct (IH H2 Hg) as (f0 & t0 & ? & ? & ?). exists f0, t0. simpl. auto. }
  induction f using form_ind'; intros g t E A; cbn [instantiate] in E.
  - apply mk_pred_Ok in E. subst. inversion A; subst. apply in_map_iff in H0 as (t0 & <- & H).
    exists t0. split; auto. now constructor.
  - apply mk_eq_Ok in E. subst. inversion A; subst; eexists; split; eauto; constructor.
  - apply mk_numfun_Ok in E. subst. inversion A; subst. apply in_map_iff in H0 as (t0 & <- & H).
    exists t0. split; auto. now constructor.
  - inversion E; subst. inversion A.
  - apply bind_Ok in E as (ops' & M & E). inversion E; subst. apply argument_mk_op in A as (g & Hg & A).
    destruct (L ops H ops' g t M Hg A) as (f0 & t0 & ? & ? & ?). exists t0. split; auto. eapply A_binfun; eauto.
  - apply bind_Ok in E as (ops' & M & E). inversion E; subst. apply argument_mk_op in A as (g & Hg & A).
    destruct (L ops H ops' g t M Hg A) as (f0 & t0 & ? & ? & ?). exists t0. split; auto. eapply A_bin; eauto.
  - apply bind_Ok in E as (g' & M & E). inversion E; subst. inversion A; subst.
    destruct (IHf _ _ M H0) as (t0 & ? & ?). exists t0. split; auto. now constructor.
  - apply bind_Ok in E as (g' & M & E). inversion E; subst. inversion A; subst.
    destruct (IHf _ _ M H0) as (t0 & ? & ?). exists t0. split; auto. now constructor.
  - discriminate.
  - discriminate.
Qed.

(** ** success *)
Definition family (m : mapping) (f : form) (t : term) : Prop :=
  exists t0, argument t0 f /\ t = inst_term m t0.
(** the names inside a built formula are legal *)
Fixpoint names_ok (f : form) : Prop :=
  match f with
  | FPred n _ => legal_name n
  | FNumFun n _ => legal_function n
  | FBinFun _ ops | FBin _ ops => fold_right (fun g p => names_ok g /\ p) True ops
  | FNot g => names_ok g
  | FQuant _ _ c => names_ok c
  | FWhen c e => names_ok c /\ names_ok e
  | FForall _ e => names_ok e
  | _ => True
  end.
Lemma names_ok_ops c f ops : ops_if c f = Some ops -> names_ok f -> Forall names_ok ops.
Proof. intros O. apply ops_if_raw in O. subst. destruct c; simpl; now rewrite fold_and_Forall. Qed.
Lemma built_names f : built f -> names_ok f.
Proof.
  induction 1 using built_ind'.
  - apply mk_pred_iff in H as (-> & H & _). exact H.
  - apply mk_eq_Ok in H. now subst.
  - pose proof (mk_numfun_Ok _ _ _ H) as ->. unfold mk_numfun in H.
    apply bind_Ok in H as (n' & H & _). apply parse_function_Ok' in H as [_ H]. exact H.
  - exact I.
  - apply (mk_op_P _ (CFun k)); auto. apply names_ok_ops. simpl. intros. now rewrite fold_and_Forall.
  - apply (mk_op_P _ (CBin k)); auto. apply names_ok_ops. simpl. intros. now rewrite fold_and_Forall.
  - exact IHbuilt.
  - exact IHbuilt.
  - split; auto.
  - exact IHbuilt.
Qed.

Lemma instantiate_Ok' m f : names_ok f -> plain f -> consistent (family m f) ->
  exists g, instantiate m f = Ok g.
Proof.
  assert (NCst : forall ts, consistent (fun t => In t ts) -> name_consistent ts).
  { intros ts C. unfold name_consistent. intros t u Ht Hu E g. apply C; auto. }
  assert (L : forall ops, Forall (fun f => names_ok f -> plain f -> consistent (family m f) -> exists g, instantiate m f = Ok g) ops ->
     Forall names_ok ops -> Forall plain ops -> (forall f, In f ops -> consistent (family m f)) ->
     exists ops', mapR (instantiate m) ops = Ok ops').
  { clear f. induction ops as [|f ops IH]; intros F B P C; [simpl; eauto|].
    inversion F as [|? ? F1 F2]; inversion B as [|? ? B1 B2]; inversion P as [|? ? P1 P2]; subst.
    destruct (F1 B1 P1) as (g & Eg). { apply C. now left. }
    destruct (IH F2 B2 P2) as (ops' & Eo). { intros. apply C. now right. }
    simpl. rewrite Eg. simpl. rewrite Eo. simpl. eauto. }
  induction f using form_ind'; intros B P C; cbn [instantiate]; cbn [names_ok] in B; simpl in P;
    rewrite ?fold_and_Forall in *.
  - exists (FPred n (map (inst_term m) ts)). apply mk_pred_iff. split; auto. split; auto.
    apply NCst. intros t u Ht Hu. apply in_map_iff in Ht as (t0 & <- & Ht), Hu as (u0 & <- & Hu).
    apply C; eexists; split; eauto; now constructor.
  - exists (FEq (inst_term m l) (inst_term m r)). apply mk_eq_iff. split; auto.
    apply NCst. intros t u Ht Hu. apply C.
    + destruct Ht as [<-|[<-|[]]]; eexists; split; eauto; constructor.
    + destruct Hu as [<-|[<-|[]]]; eexists; split; eauto; constructor.
  - unfold mk_numfun. rewrite (proj2 (parse_function_Ok n) B). simpl. eauto.
  - eauto.
  - destruct (L ops) as (ops' & ->); try tauto.
    + intros f Hf t u (t0 & Ht & ->) (u0 & Hu & ->). apply C; eexists; split; eauto; eapply A_binfun; eauto.
    + simpl. eauto.
  - destruct (L ops) as (ops' & ->); try tauto.
    + intros f Hf t u (t0 & Ht & ->) (u0 & Hu & ->). apply C; eexists; split; eauto; eapply A_bin; eauto.
    + simpl. eauto.
  - destruct IHf as (g & ->); auto.
    + intros t u (t0 & Ht & ->) (u0 & Hu & ->). apply C; eexists; split; eauto; now constructor.
    + simpl. eauto.
  - destruct IHf as (g & ->); auto.
    + intros t u (t0 & Ht & ->) (u0 & Hu & ->). apply C; eexists; split; eauto; now constructor.
    + simpl. eauto.
  - destruct P.
  - destruct P.
Qed.
Lemma instantiate_Ok m f : built f -> plain f -> consistent (family m f) ->
  exists g, instantiate m f = Ok g.
Proof. intros. apply instantiate_Ok'; auto. now apply built_names. Qed.
