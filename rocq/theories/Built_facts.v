(** Facts about constructor-built formulas: sets are sets, And/Or normal form. *)
From Coq Require Import String List Bool ZArith QArith Lia.
From Verif Require Import Py Names Logic Sem Built Py_facts Logic_facts Ops_facts.
Import ListNotations.
Open Scope string_scope.
Open Scope list_scope.
Close Scope Q_scope.

Section BuiltInd.
  Variable P : form -> Prop.
  Hypothesis HPred : forall n ts f, mk_pred n ts = Ok f -> P f.
  Hypothesis HEq : forall l r f, mk_eq l r = Ok f -> P f.
  Hypothesis HNumFun : forall n ts f, mk_numfun n ts = Ok f -> P f.
  Hypothesis HNumVal : forall v, P (FNumVal v).
  Hypothesis HBinFun : forall k ops, Forall built ops -> Forall P ops -> P (mk_binfun k ops).
  Hypothesis HBin : forall k ops, Forall built ops -> Forall P ops -> P (mk_bin k ops).
  Hypothesis HNot : forall f, built f -> P f -> P (mk_not f).
  Hypothesis HQuant : forall q vs c, built c -> P c -> P (mk_quant q vs c).
  Hypothesis HWhen : forall c e, built c -> built e -> P c -> P e -> P (mk_when c e).
  Hypothesis HForall : forall vs e, built e -> P e -> P (mk_forall vs e).
  Fixpoint built_ind' (f : form) (b : built f) {struct b} : P f :=
    let go := fix go (l : list form) (F : Forall built l) : Forall P l :=
      match F with
      | Forall_nil _ => Forall_nil P
      | Forall_cons x bx bl => Forall_cons x (built_ind' x bx) (go _ bl)
      end in
    match b with
    | B_pred n ts f h => HPred n ts f h
    | B_eq l r f h => HEq l r f h
    | B_numfun n ts f h => HNumFun n ts f h
    | B_numval v => HNumVal v
    | B_binfun k ops h => HBinFun k ops h (go ops h)
    | B_bin k ops h => HBin k ops h (go ops h)
    | B_not f h => HNot f h (built_ind' f h)
    | B_quant q vs c h => HQuant q vs c h (built_ind' c h)
    | B_when c e h h' => HWhen c e h h' (built_ind' c h) (built_ind' e h')
    | B_forall vs e h => HForall vs e h (built_ind' e h)
    end.
End BuiltInd.

Lemma mk_pred_Ok n ts f : mk_pred n ts = Ok f -> f = FPred n ts.
Proof.
  unfold mk_pred, parse_name, check_not_a_keyword, mk_name. intros H.
  apply bind_Ok in H as (n' & Hn & H). apply bind_Ok in H as ([] & Hc & H). inversion H; subst.
  destruct (is_a_keyword [] n); simpl in Hn; [discriminate|].
  destruct (name_regex n); inversion Hn; auto.
Qed.
Lemma mk_eq_Ok l r f : mk_eq l r = Ok f -> f = FEq l r.
Proof. unfold mk_eq. intros H. apply bind_Ok in H as ([] & _ & H). now inversion H. Qed.
Lemma mk_numfun_Ok n ts f : mk_numfun n ts = Ok f -> f = FNumFun n ts.
Proof.
  unfold mk_numfun, parse_function, check_not_a_keyword, mk_name. intros H.
  apply bind_Ok in H as (n' & Hn & H). inversion H; subst.
  destruct (is_a_keyword _ n); simpl in Hn; [discriminate|].
  destruct (name_regex n); inversion Hn; auto.
Qed.

(** ** a property closed under subformulas-of-operators passes to [mk_op] *)
Lemma leaves_P (P : form -> Prop) c :
  (forall f ops, ops_if c f = Some ops -> P f -> Forall P ops) ->
  forall f, P f -> Forall P (leaves c f).
Proof.
  intros Hs. induction f using form_ind'; intros Pf; simpl; auto.
  - destruct c; auto. destruct (bfun_eqb k0 k) eqn:K; auto.
    assert (F : Forall P ops) by (eapply Hs; [|exact Pf]; simpl; now rewrite K).
    clear Pf. induction H; simpl; auto. inversion F; subst. apply Forall_app. auto.
  - destruct c; auto. destruct (bop_eqb k0 k) eqn:K; auto.
    assert (F : Forall P ops) by (eapply Hs; [|exact Pf]; simpl; now rewrite K).
    clear Pf. induction H; simpl; auto. inversion F; subst. apply Forall_app. auto.
Qed.

Lemma Forall_dedup_sub {A} (eqb : A -> A -> bool) (P : A -> Prop) l :
  Forall P l -> Forall P (dedup eqb l).
Proof. rewrite !Forall_forall. intros H x Hx. apply H. eapply dedup_In; eauto. Qed.
Lemma Forall_flat_map {A B} (P : B -> Prop) (f : A -> list B) l :
  Forall (fun x => Forall P (f x)) l -> Forall P (flat_map f l).
Proof. induction 1; simpl; auto. apply Forall_app. auto. Qed.

Lemma simplify_P (P : form -> Prop) c idem ops :
  (forall f ops, ops_if c f = Some ops -> P f -> Forall P ops) ->
  Forall P ops -> Forall P (simplify_operands c idem ops).
Proof.
  intros Hs F. rewrite simplify_spec.
  assert (F' : Forall P (if idem then dedup form_eqb ops else ops)).
  { destruct idem; auto. now apply Forall_dedup_sub. }
  destruct (if idem then _ else _) as [|x [|y l]]; auto.
  apply Forall_dedup_sub, Forall_flat_map. eapply Forall_impl; [|exact F'].
  intros. now apply leaves_P.
Qed.

Lemma mk_op_P (P : form -> Prop) c ops :
  (forall f ops, ops_if c f = Some ops -> P f -> Forall P ops) ->
  (forall l, Forall P l -> P (raw_node c l)) ->
  Forall P ops -> P (mk_op c ops).
Proof.
  intros Hs Hr F. unfold mk_op. destruct (metaclass c) as [idem|]; auto.
  pose proof (simplify_P P c idem ops Hs F) as F'.
  destruct (simplify_operands c idem ops) as [|x [|y l]]; auto.
  destruct idem; auto. now inversion F'.
Qed.

Lemma ops_if_raw c f ops : ops_if c f = Some ops -> f = raw_node c ops.
Proof.
  destruct c, f; simpl; try discriminate.
  - destruct (bop_eqb k k0) eqn:K; [|discriminate]. intros [= <-]. apply bop_eqb_eq in K. now subst.
  - destruct (bfun_eqb k k0) eqn:K; [|discriminate]. intros [= <-]. apply bfun_eqb_eq in K. now subst.
Qed.

Lemma sets_ok_ops c f ops : ops_if c f = Some ops -> sets_ok f -> Forall sets_ok ops.
Proof. intros O. apply ops_if_raw in O. subst. destruct c; simpl; now rewrite fold_and_Forall. Qed.

Lemma built_sets_ok f : built f -> sets_ok f.
Proof.
  induction 1 using built_ind'.
  - apply mk_pred_Ok in H. now subst.
  - apply mk_eq_Ok in H. now subst.
  - apply mk_numfun_Ok in H. now subst.
  - exact I.
  - apply (mk_op_P _ (CFun k)); auto. apply sets_ok_ops. simpl. intros. now rewrite fold_and_Forall.
  - apply (mk_op_P _ (CBin k)); auto. apply sets_ok_ops. simpl. intros. now rewrite fold_and_Forall.
  - exact IHbuilt.
  - split; auto. apply dedup_NoDupE, var_eqb_equiv.
  - split; auto.
  - split; auto. apply dedup_NoDupE, var_eqb_equiv.
Qed.

(** ** normal form of And / Or nodes *)
Definition is_node (k : bop) (f : form) : bool :=
  match f with FBin k' _ => bop_eqb k k' | _ => false end.
(** an And (Or) node: no operand is an And (Or), no two equal operands, not exactly one operand *)
Definition nf_node (k : bop) (ops : list form) : Prop :=
  Forall (fun g => is_node k g = false) ops /\ NoDupE form_eqb ops /\ length ops <> 1.
Fixpoint nf (f : form) : Prop :=
  match f with
  | FBinFun _ ops => fold_right (fun g p => nf g /\ p) True ops
  | FBin k ops => fold_right (fun g p => nf g /\ p) True ops
                  /\ match k with OAnd | OOr => nf_node k ops | _ => True end
  | FNot g => nf g
  | FQuant _ _ c => nf c
  | FWhen c e => nf c /\ nf e
  | FForall _ e => nf e
  | _ => True
  end.

Lemma nf_ops c f ops : ops_if c f = Some ops -> nf f -> Forall nf ops.
Proof.
  intros O. apply ops_if_raw in O. subst. destruct c; simpl; rewrite fold_and_Forall; tauto.
Qed.

Lemma leaves_not_node k f : Forall (fun g => is_node k g = false) (leaves (CBin k) f).
Proof.
  induction f using form_ind'; simpl; auto.
  destruct (bop_eqb k k0) eqn:K.
  - apply Forall_flat_map. auto.
  - constructor; auto.
Qed.

Lemma mk_bin_nf k ops : Forall nf ops -> nf (mk_bin k ops).
Proof.
  intros F. unfold mk_bin, mk_op. destruct (metaclass (CBin k)) as [idem|] eqn:M.
  2:{ simpl. rewrite fold_and_Forall. split; auto. destruct k; auto; discriminate. }
  assert (idem = true) by (destruct k; simpl in M; congruence). subst idem.
  pose proof (simplify_P nf (CBin k) true ops (nf_ops (CBin k)) F) as F'.
  rewrite simplify_spec in *. cbv iota in *.
  destruct (dedup form_eqb ops) as [|x [|y l]].
  - simpl. split; auto. destruct k; auto; (repeat split; auto; try discriminate; constructor).
  - now inversion F'.
  - remember (dedup form_eqb (flat_map (leaves (CBin k)) (x :: y :: l))) as out.
    assert (N : Forall (fun g => is_node k g = false) out).
    { subst. apply Forall_dedup_sub, Forall_flat_map, Forall_forall. intros. apply leaves_not_node. }
    assert (D : NoDupE form_eqb out) by (subst; apply dedup_NoDupE, form_eqb_equiv).
    clear Heqout. destruct out as [|a [|b m]].
    + simpl. split; auto. destruct k; auto; (repeat split; auto; discriminate).
    + now inversion F'.
    + simpl. rewrite <- fold_and_Forall in F'. split; auto.
      destruct k; auto; (repeat split; auto; discriminate).
Qed.

Lemma built_nf f : built f -> nf f.
Proof.
  induction 1 using built_ind'.
  - apply mk_pred_Ok in H. now subst.
  - apply mk_eq_Ok in H. now subst.
  - apply mk_numfun_Ok in H. now subst.
  - exact I.
  - apply (mk_op_P _ (CFun k)); auto. apply nf_ops. simpl. intros. now rewrite fold_and_Forall.
  - now apply mk_bin_nf.
  - exact IHbuilt.
  - exact IHbuilt.
  - split; auto.
  - exact IHbuilt.
Qed.

(** the constructor applied to the operands of a normal node gives that node *)
Lemma flat_leaves_id k ops :
  Forall (fun g => is_node k g = false) ops -> flat_map (leaves (CBin k)) ops = ops.
Proof.
  induction 1; simpl; auto. rewrite IHForall. destruct x; simpl in *; auto. now rewrite H.
Qed.
Lemma mk_bin_node_id k ops : nf_node k ops -> mk_bin k ops = FBin k ops.
Proof.
  intros (N & D & L). unfold mk_bin, mk_op. destruct (metaclass (CBin k)) as [idem|] eqn:M; auto.
  rewrite simplify_spec. assert (idem = true) by (destruct k; simpl in M; congruence). subst.
  cbv iota. rewrite (dedup_id _ form_eqb_equiv _ D).
  destruct ops as [|x [|y l]]; auto; [simpl in L; lia|].
  rewrite flat_leaves_id by auto. rewrite (dedup_id _ form_eqb_equiv _ D). auto.
Qed.

(** ** operands of a built formula are built *)
Fixpoint hb (f : form) : Prop :=
  built f /\
  match f with
  | FBinFun _ ops | FBin _ ops => fold_right (fun g p => hb g /\ p) True ops
  | FNot g => hb g
  | FQuant _ _ c => hb c
  | FWhen c e => hb c /\ hb e
  | FForall _ e => hb e
  | _ => True
  end.
Lemma hb_built f : hb f -> built f.
Proof. destruct f; simpl; tauto. Qed.
Lemma hb_ops c f ops : ops_if c f = Some ops -> hb f -> Forall hb ops.
Proof.
  intros O. apply ops_if_raw in O. subst. destruct c; simpl; rewrite fold_and_Forall; tauto.
Qed.
Lemma hb_mk_op c ops : built (mk_op c ops) -> Forall hb ops -> hb (mk_op c ops).
Proof.
  intros B F. unfold mk_op in *.
  assert (R : forall l, built (raw_node c l) -> Forall hb l -> hb (raw_node c l)).
  { intros l Bl Fl. rewrite <- fold_and_Forall in Fl. destruct c; simpl; auto. }
  destruct (metaclass c) as [idem|]; auto.
  pose proof (simplify_P hb c idem ops (hb_ops c) F) as F'.
  destruct (simplify_operands c idem ops) as [|x [|y l]]; auto.
  destruct idem; auto. now inversion F'.
Qed.
Lemma built_hb f : built f -> hb f.
Proof.
  induction 1 using built_ind'.
  - assert (B : built f) by (eapply B_pred; eauto). apply mk_pred_Ok in H. subst. simpl. auto.
  - assert (B : built f) by (eapply B_eq; eauto). apply mk_eq_Ok in H. subst. simpl. auto.
  - assert (B : built f) by (eapply B_numfun; eauto). apply mk_numfun_Ok in H. subst. simpl. auto.
  - simpl. split; auto. constructor.
  - apply hb_mk_op; auto. now apply B_binfun.
  - apply hb_mk_op; auto. now apply B_bin.
  - simpl. split; auto. now apply B_not.
  - simpl. split; auto. now apply (B_quant q vs).
  - simpl. split; auto. now apply B_when.
  - simpl. split; auto. now apply (B_forall vs).
Qed.

Lemma instantiate_built m f : forall g, built f -> instantiate m f = Ok g -> built g.
Proof.
  assert (L : forall ops, Forall (fun f => forall g, built f -> instantiate m f = Ok g -> built g) ops ->
     forall ops', Forall hb ops -> mapR (instantiate m) ops = Ok ops' -> Forall built ops').
  { intros ops F ops' B M. apply mapR_Ok in M. induction M; auto.
    inversion F; inversion B; subst. constructor; eauto using hb_built. }
  induction f using form_ind'; simpl; intros g B E; apply built_hb in B; simpl in B;
    rewrite ?fold_and_Forall in B.
  - eapply B_pred; eauto.
  - eapply B_eq; eauto.
  - eapply B_numfun; eauto.
  - inversion E. constructor.
  - apply bind_Ok in E as (ops' & M & E). inversion E; subst. apply B_binfun.
    eapply L; eauto. tauto.
  - apply bind_Ok in E as (ops' & M & E). inversion E; subst. apply B_bin.
    eapply L; eauto. tauto.
  - apply bind_Ok in E as (g' & M & E). inversion E; subst. apply B_not. apply IHf; auto.
    apply hb_built. tauto.
  - apply bind_Ok in E as (g' & M & E). inversion E; subst. apply B_quant. apply IHf; auto.
    apply hb_built. tauto.
  - discriminate.
  - discriminate.
Qed.

(** And(And(xs), And(ys)) is And(xs + ys), for built operands *)
Lemma dedup_from_app {A} (eqb : A -> A -> bool) (E : is_equiv eqb) l : forall seen m,
  dedup_from eqb seen (l ++ m)
  = dedup_from eqb seen l ++ dedup_from eqb (rev (dedup_from eqb seen l) ++ seen) m.
Proof.
  induction l as [|a l IH]; simpl; intros; auto.
  destruct (memb eqb a seen) eqn:M; [apply IH|].
  simpl. rewrite IH. now rewrite <- app_assoc.
Qed.

(** ** arithmetic *)
Section Arith.
  Variable I : interp.
  Variable e : env I.

  Lemma plus_app l m :
    (fold_right (fun g q => value I e g + q) 0 (l ++ m)
     == fold_right (fun g q => value I e g + q) 0 l + fold_right (fun g q => value I e g + q) 0 m)%Q.
  Proof. induction l; simpl; [ring|]. rewrite IHl. ring. Qed.
  Lemma times_app l m :
    (fold_right (fun g q => value I e g * q) 1 (l ++ m)
     == fold_right (fun g q => value I e g * q) 1 l * fold_right (fun g q => value I e g * q) 1 m)%Q.
  Proof. induction l; simpl; [ring|]. rewrite IHl. ring. Qed.

  Lemma plus_leaves f :
    (fold_right (fun g q => value I e g + q) 0 (leaves (CFun BPlus) f) == value I e f)%Q.
  Proof.
    induction f using form_ind'; simpl; try ring.
    destruct k; simpl; try ring.
    induction H; simpl; [reflexivity|]. rewrite plus_app, H, IHForall. reflexivity.
  Qed.
  Lemma times_leaves f :
    (fold_right (fun g q => value I e g * q) 1 (leaves (CFun BTimes) f) == value I e f)%Q.
  Proof.
    induction f using form_ind'; simpl; try ring.
    destruct k; simpl; try ring.
    induction H; simpl; [reflexivity|]. rewrite times_app, H, IHForall. reflexivity.
  Qed.

  Lemma mk_plus_value ops :
    NoDupE form_eqb (flat_map (leaves (CFun BPlus)) ops) ->
    (value I e (mk_binfun BPlus ops) == fold_right (fun g q => value I e g + q) 0 ops)%Q.
  Proof.
    intros D. unfold mk_binfun, mk_op. simpl. rewrite simplify_spec. cbv iota.
    destruct ops as [|x [|y l]]; [reflexivity|reflexivity|].
    remember (x :: y :: l) as ops. clear Heqops. rewrite (dedup_id _ form_eqb_equiv _ D).
    assert (E : (fold_right (fun g q => value I e g + q) 0 (flat_map (leaves (CFun BPlus)) ops)
                == fold_right (fun g q => value I e g + q) 0 ops)%Q).
    { clear. induction ops; simpl; [reflexivity|]. rewrite plus_app, plus_leaves, IHops. reflexivity. }
    rewrite <- E. destruct (flat_map _ ops) as [|a [|b m]]; reflexivity.
  Qed.
  Lemma mk_times_value ops :
    NoDupE form_eqb (flat_map (leaves (CFun BTimes)) ops) ->
    (value I e (mk_binfun BTimes ops) == fold_right (fun g q => value I e g * q) 1 ops)%Q.
  Proof.
    intros D. unfold mk_binfun, mk_op. simpl. rewrite simplify_spec. cbv iota.
    destruct ops as [|x [|y l]]; [reflexivity|reflexivity|].
    remember (x :: y :: l) as ops. clear Heqops. rewrite (dedup_id _ form_eqb_equiv _ D).
    assert (E : (fold_right (fun g q => value I e g * q) 1 (flat_map (leaves (CFun BTimes)) ops)
                == fold_right (fun g q => value I e g * q) 1 ops)%Q).
    { clear. induction ops; simpl; [reflexivity|]. rewrite times_app, times_leaves, IHops. reflexivity. }
    rewrite <- E. destruct (flat_map _ ops) as [|a [|b m]]; reflexivity.
  Qed.
End Arith.

Definition is_fnode (k : bfun) (f : form) : bool :=
  match f with FBinFun k' _ => bfun_eqb k k' | _ => false end.
Lemma flat_leaves_fid k ops :
  Forall (fun g => is_fnode k g = false) ops -> flat_map (leaves (CFun k)) ops = ops.
Proof.
  induction 1; simpl; auto. rewrite IHForall. destruct x; simpl in *; auto. now rewrite H.
Qed.
(** distinct operands, none of the same class: nothing is changed *)
Lemma mk_binfun_id k ops :
  Forall (fun g => is_fnode k g = false) ops -> NoDupE form_eqb ops ->
  mk_binfun k ops = FBinFun k ops.
Proof.
  intros N D. unfold mk_binfun, mk_op. destruct (metaclass (CFun k)) as [idem|] eqn:M; auto.
  assert (idem = false) by (destruct k; simpl in M; congruence). subst.
  rewrite simplify_spec. cbv iota. destruct ops as [|x [|y l]]; auto.
  rewrite flat_leaves_fid by auto. rewrite (dedup_id _ form_eqb_equiv _ D). auto.
Qed.
