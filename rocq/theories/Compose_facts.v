(** Instantiating in two steps. *)
From Coq Require Import String List Bool Lia.
From Verif Require Import Py Names Logic Validation Sem Spec Built Py_facts Logic_facts Ops_facts Names_facts Built_facts NF_facts Spec_Core Spec_Subst Inst_facts Core_facts Subst_facts.
Import ListNotations.
Open Scope string_scope.
Open Scope list_scope.

(** lists with the same first occurrences, whatever came before *)
Definition sim (l m : list form) : Prop := forall s, dedup_from form_eqb s l = dedup_from form_eqb s m.
Lemma sim_refl l : sim l l.
Proof. intros s. reflexivity. Qed.
Lemma sim_trans l m n : sim l m -> sim m n -> sim l n.
Proof. intros H K s. now rewrite H. Qed.
Lemma sim_sym l m : sim l m -> sim m l.
Proof. intros H s. now rewrite H. Qed.
Lemma sim_app l l' m m' : sim l l' -> sim m m' -> sim (l ++ m) (l' ++ m').
Proof.
  intros H K s. rewrite !(dedup_from_app _ form_eqb_equiv). rewrite (H s), K. f_equal.
  apply dedup_from_ext. intros x. rewrite !memb_app. f_equal.
  rewrite <- (memb_dedup _ form_eqb_equiv l), <- (memb_dedup _ form_eqb_equiv l'). unfold dedup. now rewrite H.
Qed.
Lemma sim_dedup l : sim (dedup form_eqb l) l.
Proof. intros s. apply (dedup_from_dedup _ form_eqb_equiv). Qed.
Lemma sim_flat (h : form -> list form) l :
  (forall x y, In x l -> In y l -> form_eqb x y = true -> list_eqb form_eqb (h x) (h y) = true) ->
  sim (flat_map h (dedup form_eqb l)) (flat_map h l).
Proof.
  intros R s. unfold dedup. apply (dedup_flat_map _ form_eqb_equiv form_eqb form_eqb_equiv).
  - intros x y Ix Iy. rewrite app_nil_r in Ix, Iy. auto.
  - intros ? ? [].
Qed.
Lemma sim_flat_map {A} (h k : A -> list form) l : (forall x, In x l -> sim (h x) (k x)) -> sim (flat_map h l) (flat_map k l).
Proof.
  induction l as [|a l IH]; intros H; cbn; [apply sim_refl|]. apply sim_app; [apply H; now left|apply IH; intros; apply H; now right].
Qed.

Lemma leaves_leaf c x : ops_if c x = None -> leaves c x = [x].
Proof. intros H. now rewrite leaves_ops_if, H. Qed.
Lemma leaves_raw c l : leaves c (raw_node c l) = flat_map (leaves c) l.
Proof. rewrite leaves_ops_if. destruct c as [k|k]; destruct k; reflexivity. Qed.
Lemma In_leaves_leaf c l x : In x (flat_map (leaves c) l) -> ops_if c x = None.
Proof. intros H. apply in_flat_map in H as (y & _ & H). pose proof (leaves_no_ops c y) as F. rewrite Forall_forall in F. auto. Qed.

Lemma leaves_mk_op c ops : metaclass c <> None -> sim (leaves c (mk_op c ops)) (flat_map (leaves c) ops).
Proof.
  intros M. rewrite mk_op_node. destruct (metaclass c) as [idem|]; [|congruence]. clear M. rewrite simplify_spec.
  assert (D : sim (flat_map (leaves c) (if idem then dedup form_eqb ops else ops)) (flat_map (leaves c) ops)).
  { destruct idem; [|apply sim_refl]. apply sim_flat. intros x y _ _. apply leaves_cong. }
  eapply sim_trans; [|exact D]. clear D. generalize (if idem then dedup form_eqb ops else ops). clear ops. intros l.
  assert (L : sim (leaves c (node c idem (dedup form_eqb (flat_map (leaves c) l)))) (flat_map (leaves c) l)).
  { eapply sim_trans; [|apply sim_dedup].
    assert (X : forall x, In x (dedup form_eqb (flat_map (leaves c) l)) -> ops_if c x = None).
    { intros x Hx. apply dedup_In in Hx. now apply In_leaves_leaf in Hx. }
    revert X. generalize (dedup form_eqb (flat_map (leaves c) l)). intros L X.
    assert (R : leaves c (raw_node c L) = L).
    { rewrite leaves_raw. apply flat_leaves_none. now apply Forall_forall. }
    unfold node. destruct L as [|x [|y L]]; try (rewrite R; apply sim_refl). destruct idem; [|rewrite R; apply sim_refl].
    rewrite leaves_leaf by (apply X; now left). apply sim_refl. }
  destruct l as [|x [|y l]]; [|clear L|exact L].
  - cbn [flat_map]. cbn [flat_map dedup dedup_from] in L. exact L.
  - unfold node. destruct idem; [cbn; rewrite app_nil_r; apply sim_refl|]. rewrite leaves_raw. apply sim_refl.
Qed.

Lemma node_false c l : node c false l = raw_node c l.
Proof. now destruct l as [|x [|y l]]. Qed.

Definition gi (m : mapping) (f : form) : form := match instantiate m f with Ok g => g | Err _ => f end.
Definition can (m : mapping) (f : form) : Prop := instantiate m f = Ok (gi m f).
Lemma can_Ok m f g : instantiate m f = Ok g -> can m f /\ gi m f = g.
Proof. unfold can, gi. intros ->. auto. Qed.
Lemma can_mapR m l : (forall x, In x l -> can m x) -> mapR (instantiate m) l = Ok (map (gi m) l).
Proof.
  induction l as [|a l IH]; intros H; cbn; auto. rewrite (H a) by now left. cbn. rewrite IH by (intros; apply H; now right). reflexivity.
Qed.
Lemma mapR_can m l l' : mapR (instantiate m) l = Ok l' -> (forall x, In x l -> can m x) /\ l' = map (gi m) l.
Proof.
  intros H. apply mapR_Ok in H. induction H as [|x y l l' H H' [IH1 IH2]]; [split; [intros ? []|reflexivity]|].
  apply can_Ok in H as [C G]. split; [intros z [<-|Hz]; auto|]. cbn. congruence.
Qed.
Lemma inst_raw m c ops : instantiate m (raw_node c ops) = let* l := mapR (instantiate m) ops in Ok (mk_op c l).
Proof. destruct c; reflexivity. Qed.
Lemma can_raw m c ops : can m (raw_node c ops) -> (forall x, In x ops -> can m x) /\ gi m (raw_node c ops) = mk_op c (map (gi m) ops).
Proof.
  unfold can at 1. rewrite inst_raw. intros H. apply bind_Ok in H as (l & H & [= E]). apply mapR_can in H as (H & ->). auto.
Qed.

Lemma inst_leaves m c f : metaclass c <> None -> can m f ->
  (forall x, In x (leaves c f) -> can m x)
  /\ sim (leaves c (gi m f)) (flat_map (fun x => leaves c (gi m x)) (leaves c f)).
Proof.
  intros Mc.
  assert (B : forall f, ops_if c f = None -> can m f -> (forall x, In x (leaves c f) -> can m x)
     /\ sim (leaves c (gi m f)) (flat_map (fun x => leaves c (gi m x)) (leaves c f))).
  { intros g N C. rewrite leaves_leaf by auto. split; [intros x [<-|[]]; auto|]. cbn. rewrite app_nil_r. apply sim_refl. }
  assert (R : forall ops, Forall (fun f => can m f -> (forall x, In x (leaves c f) -> can m x)
     /\ sim (leaves c (gi m f)) (flat_map (fun x => leaves c (gi m x)) (leaves c f))) ops -> can m (raw_node c ops) ->
     (forall x, In x (leaves c (raw_node c ops)) -> can m x)
     /\ sim (leaves c (gi m (raw_node c ops))) (flat_map (fun x => leaves c (gi m x)) (leaves c (raw_node c ops)))).
  { intros ops F C. apply can_raw in C as (C & ->). rewrite leaves_raw. rewrite Forall_forall in F. split.
    - intros x Hx. apply in_flat_map in Hx as (y & Iy & Hx). apply (F y Iy); auto.
    - eapply sim_trans; [now apply leaves_mk_op|]. clear - F C. induction ops as [|a ops IH]; cbn; [apply sim_refl|].
      rewrite flat_map_app. apply sim_app; [apply F; [now left|apply C; now left]|].
      apply IH; intros; [apply F; auto; now right|apply C; now right]. }
  induction f using form_ind'; intros C; try (apply B; [destruct c; reflexivity|exact C]).
  - destruct (ops_if c (FBinFun k ops)) as [l|] eqn:O; [|now apply B]. apply ops_if_raw in O.
    destruct c; cbn in O; inversion O; subst. now apply (R l).
  - destruct (ops_if c (FBin k ops)) as [l|] eqn:O; [|now apply B]. apply ops_if_raw in O.
    destruct c; cbn in O; inversion O; subst. now apply (R l).
Qed.

(** instances are in normal form *)
Lemma inst_nff m f : forall g, instantiate m f = Ok g -> nff g.
Proof.
  assert (L : forall ops l, Forall (fun f => forall g, instantiate m f = Ok g -> nff g) ops ->
    mapR (instantiate m) ops = Ok l -> Forall nff l).
  { intros ops l F H. apply mapR_Ok in H. induction H; auto. inversion F; subst. constructor; auto. }
  induction f using form_ind'; intros g E; cbn [instantiate] in E; try discriminate.
  - apply mk_pred_Ok in E. subst. exact I.
  - apply mk_eq_Ok in E. subst. exact I.
  - apply mk_numfun_Ok in E. subst. exact I.
  - injection E as <-. exact I.
  - apply bind_Ok in E as (l & H1 & [= <-]). apply (mk_op_nff (CFun k)). eauto.
  - apply bind_Ok in E as (l & H1 & [= <-]). apply (mk_op_nff (CBin k)). eauto.
  - apply bind_Ok in E as (l & H1 & [= <-]). cbn. eauto.
  - apply bind_Ok in E as (l & H1 & [= <-]). cbn. split; eauto. apply dedup_NoDupE, var_eqb_equiv.
Qed.

(** And, Or over formulas in normal form *)
Lemma mk_op_norm c ops : metaclass c = Some true -> Forall nff ops ->
  mk_op c ops = node c true (dedup form_eqb (flat_map (leaves c) ops)).
Proof.
  intros M F. rewrite mk_op_node, M, simplify_spec.
  assert (Q : dedup form_eqb (flat_map (leaves c) (dedup form_eqb ops)) = dedup form_eqb (flat_map (leaves c) ops)).
  { apply (sim_flat (leaves c)). intros x y _ _. apply leaves_cong. }
  rewrite <- Q. clear Q. assert (FD : Forall nff (dedup form_eqb ops)).
  { rewrite Forall_forall in *. intros x Hx. apply F. now apply dedup_In in Hx. }
  revert FD. generalize (dedup form_eqb ops). intros l FD. destruct l as [|x [|y l]]; auto.
  inversion FD; subst. clear FD F H2. cbn [flat_map]. rewrite app_nil_r.
  destruct (ops_if c x) as [l|] eqn:O.
  - rewrite leaves_ops_if, O. pose proof O as O'. apply ops_if_raw in O. subst. apply nff_raw in H1 as [_ N].
    unfold nfn in N. rewrite M in N. destruct N as (N1 & N2 & N3). rewrite flat_leaves_none by auto.
    rewrite (dedup_id _ form_eqb_equiv _ N2). unfold node. destruct l as [|? [|? ?]]; auto. now destruct N3.
  - rewrite leaves_leaf by auto. reflexivity.
Qed.

Lemma is_num_leaves c f : is_num f -> Forall is_num (leaves c f).
Proof.
  induction f using form_ind'; intros N; inversion N; subst; rewrite leaves_ops_if; destruct c as [k'|k']; cbn [ops_if]; try (constructor; [exact N|constructor]).
  destruct (bfun_eqb k' k); [|constructor; [exact N|constructor]]. clear N. induction H; cbn; [constructor|]. inversion H3; subst.
  apply Forall_app. split; auto.
Qed.
Lemma inst_class m k f g : is_num f -> ops_if (CFun k) f = None -> instantiate m f = Ok g -> ops_if (CFun k) g = None.
Proof.
  intros N O E. inversion N; subst; cbn [instantiate] in E.
  - apply mk_numfun_Ok in E. now subst.
  - now injection E as <-.
  - apply bind_Ok in E as (l & _ & [= <-]). unfold mk_binfun. rewrite mk_op_node. cbn in O.
    destruct (bfun_eqb k k0) eqn:Q; [discriminate|].
    assert (X : forall l, ops_if (CFun k) (raw_node (CFun k0) l) = None) by (intros; cbn; now rewrite Q).
    destruct (metaclass (CFun k0)) as [[]|] eqn:M; auto; [destruct k0; discriminate|].
    unfold node. destruct (simplify_operands (CFun k0) false l) as [|? [|? ?]]; auto.
Qed.

(** the instance of a node is the node of the instances *)
Lemma inst_mk_op m c ops : (forall k, c = CFun k -> Forall is_num ops) -> Forall nff ops -> (forall x, In x ops -> can m x) ->
  instantiate m (mk_op c ops) = Ok (mk_op c (map (gi m) ops)).
Proof.
  intros NU NF C. destruct (metaclass c) as [idem|] eqn:M.
  2:{ rewrite (mk_op_node c ops), M, inst_raw, can_mapR; auto. }
  assert (Mc : metaclass c <> None) by congruence.
  assert (CL : forall x, In x (flat_map (leaves c) ops) -> can m x).
  { intros x Hx. apply in_flat_map in Hx as (y & Iy & Hx). now apply (inst_leaves m c y Mc (C y Iy)). }
  assert (S1 : sim (flat_map (leaves c) (map (gi m) ops))
                   (flat_map (fun x => leaves c (gi m x)) (flat_map (leaves c) ops))).
  { clear - C Mc. induction ops as [|a ops IH]; cbn; [apply sim_refl|]. rewrite flat_map_app. apply sim_app.
    - apply inst_leaves; auto. apply C. now left.
    - apply IH. intros. apply C. now right. }
  assert (S2 : sim (flat_map (leaves c) (map (gi m) ops))
                   (flat_map (fun x => leaves c (gi m x)) (dedup form_eqb (flat_map (leaves c) ops)))).
  { eapply sim_trans; [exact S1|]. apply sim_sym. apply (sim_flat (fun x => leaves c (gi m x))).
    intros x y Ix Iy Q. apply leaves_cong. exact (instantiate_cong m m x (same_mapping_refl m) y _ _ Q (CL x Ix) (CL y Iy)). }
  assert (CD : forall x, In x (dedup form_eqb (flat_map (leaves c) ops)) -> can m x).
  { intros x Hx. apply dedup_In in Hx. auto. }
  assert (FM : forall l, flat_map (leaves c) (map (gi m) l) = flat_map (fun x => leaves c (gi m x)) l).
  { induction l as [|a l IH]; cbn; congruence. }
  assert (NG : forall l, (forall x, In x l -> can m x) -> Forall nff (map (gi m) l)).
  { intros l H. apply Forall_forall. intros x Hx. apply in_map_iff in Hx as (y & <- & Hy). exact (inst_nff m y _ (H y Hy)). }
  destruct idem.
  - rewrite !mk_op_norm; auto. pose proof (S2 []) as Q. unfold dedup at 2. rewrite Q. clear Q S1 S2. clear CL.
    revert CD. generalize (dedup form_eqb (flat_map (leaves c) ops)). intros L CD.
    assert (G : instantiate m (raw_node c L) = Ok (node c true (dedup form_eqb (flat_map (fun x => leaves c (gi m x)) L)))).
    { rewrite inst_raw, can_mapR by auto. cbn. f_equal. rewrite mk_op_norm; auto. now rewrite FM. }
    destruct L as [|x [|y L]]; auto. unfold node at 1. rewrite (CD x) by now left. f_equal.
    cbn [flat_map]. rewrite app_nil_r.
    pose proof (mk_op_norm c [gi m x] M (NG [x] CD)) as W. cbn [flat_map] in W. rewrite app_nil_r in W. change (dedup_from form_eqb [] ?l) with (dedup form_eqb l) in *.
    unfold dedup in W |- *. rewrite <- W. rewrite mk_op_node, M, simplify_spec. reflexivity.
  - assert (CF : exists k, c = CFun k) by (destruct c as [k|k]; [destruct k; discriminate|eauto]). destruct CF as (k & ->).
    specialize (NU k eq_refl).
    destruct ops as [|x [|y ops]].
    + rewrite (mk_op_node _ []), M, simplify_spec. cbn [node]. rewrite inst_raw. reflexivity.
    + rewrite (mk_op_node _ [x]), M, simplify_spec. cbn [node]. rewrite inst_raw, can_mapR; auto.
    + remember (x :: y :: ops) as l. assert (E : forall l', length l' >= 2 -> mk_op (CFun k) l' = raw_node (CFun k) (dedup form_eqb (flat_map (leaves (CFun k)) l'))).
      { intros l' Hl. rewrite mk_op_node, M, simplify_spec. destruct l' as [|a [|b l']]; cbn in Hl; try lia.
        apply node_false. }
      rewrite (E l), (E (map (gi m) l)) by (rewrite ?map_length; subst l; cbn; lia).
      rewrite inst_raw, can_mapR by auto. cbn [Py.bind]. f_equal. pose proof (S2 []) as Q. unfold dedup at 2. rewrite Q.
      assert (NL : Forall is_num (dedup form_eqb (flat_map (leaves (CFun k)) l))).
      { apply Forall_forall. intros z Hz. apply dedup_In in Hz. apply in_flat_map in Hz as (w & Iw & Hz).
        rewrite Forall_forall in NU. pose proof (is_num_leaves (CFun k) w (NU w Iw)) as F. rewrite Forall_forall in F. auto. }
      assert (LL : forall z, In z (dedup form_eqb (flat_map (leaves (CFun k)) l)) -> ops_if (CFun k) z = None).
      { intros z Hz. apply dedup_In in Hz. now apply In_leaves_leaf in Hz. }
      clear Q S1 S2 CL E Heql. revert CD NL LL. generalize (dedup form_eqb (flat_map (leaves (CFun k)) l)). intros L CD NL LL.
      rewrite mk_op_node, M, simplify_spec. destruct L as [|z [|w L]]; [reflexivity| |].
      * cbn [map flat_map]. rewrite app_nil_r. rewrite leaves_leaf; [reflexivity|]. inversion NL; subst.
        apply (inst_class m k z); auto; [apply LL|apply CD]; now left.
      * change (map (gi m) (z :: w :: L)) with (gi m z :: gi m w :: map (gi m) L) at 1.
        cbv iota. rewrite <- FM. apply node_false.
Qed.

Lemma inst_steps m1 m2 m3 f : numeric_nodes f ->
  (forall t, argument t f -> inst_term m3 t = inst_term m2 (inst_term m1 t)) ->
  forall f1 f3, instantiate m1 f = Ok f1 -> instantiate m3 f = Ok f3 -> instantiate m2 f1 = Ok f3.
Proof.
  assert (L : forall c ops, Forall (fun f => numeric_nodes f ->
      (forall t, argument t f -> inst_term m3 t = inst_term m2 (inst_term m1 t)) ->
      forall f1 f3, instantiate m1 f = Ok f1 -> instantiate m3 f = Ok f3 -> instantiate m2 f1 = Ok f3) ops ->
    Forall numeric_nodes ops -> (forall k, c = CFun k -> Forall is_num ops) ->
    (forall g t, In g ops -> argument t g -> inst_term m3 t = inst_term m2 (inst_term m1 t)) ->
    forall l1 l3, mapR (instantiate m1) ops = Ok l1 -> mapR (instantiate m3) ops = Ok l3 ->
    instantiate m2 (mk_op c l1) = Ok (mk_op c l3)).
  { intros c ops F NN NU A l1 l3 H1 H3.
    assert (X : Forall2 (fun x y => instantiate m2 x = Ok y) l1 l3 /\ Forall nff l1 /\ (Forall is_num ops -> Forall is_num l1)).
    { apply mapR_Ok in H1, H3. clear NU. revert l3 H3. induction H1 as [|x y ops l1 E H1 IH]; intros l3 H3; inversion H3 as [|? y0 ? l' E3 H3']; subst; [repeat split; auto|].
      inversion F as [|? ? Fx Fl]; inversion NN as [|? ? Nx Nl]; subst. destruct (IH Fl Nl (fun g t I => A g t (or_intror I)) _ H3') as (I1 & I2 & I3).
      repeat split; auto.
      - constructor; auto. apply Fx; auto. intros t. apply A. now left.
      - constructor; auto. exact (inst_nff m1 x y E).
      - intros N. inversion N as [|? ? Mx Ml]; subst. constructor; auto. exact (inst_is_num m1 x y Mx E). }
    destruct X as (X1 & X2 & X3). assert (C : mapR (instantiate m2) l1 = Ok l3) by now apply mapR_Ok.
    apply mapR_can in C as (C & ->). apply inst_mk_op; auto. intros k K. apply X3, (NU k K). }
  assert (NNf : forall k ops, numeric_nodes (FBinFun k ops) -> Forall numeric_nodes ops /\ Forall is_num ops).
  { intros k ops N. split; apply Forall_forall; intros g Hg; [|exact (N k ops g (W_self _) Hg)].
    intros k' o x W Hx. refine (N k' o x _ Hx). eapply W_binfun; eauto. }
  induction f using form_ind'; intros NN A g1 g3 E1 E3; cbn [instantiate] in E1, E3; try discriminate.
  - pose proof (mk_pred_Ok _ _ _ E1) as ->. cbn [instantiate]. rewrite <- E3. f_equal. rewrite map_map.
    apply map_ext_in. intros t Ht. symmetry. apply A. now constructor.
  - pose proof (mk_eq_Ok _ _ _ E1) as ->. cbn [instantiate]. rewrite <- E3. rewrite !A by constructor. reflexivity.
  - pose proof (mk_numfun_Ok _ _ _ E1) as ->. cbn [instantiate]. rewrite <- E3. f_equal. rewrite map_map.
    apply map_ext_in. intros t Ht. symmetry. apply A. now constructor.
  - injection E1 as <-. injection E3 as <-. reflexivity.
  - apply bind_Ok in E1 as (l1 & M1 & [= <-]). apply bind_Ok in E3 as (l3 & M3 & [= <-]). apply NNf in NN as (N1 & N2).
    apply (L (CFun k) ops); auto. intros g t I1 I2. apply A. eapply A_binfun; eauto.
  - apply bind_Ok in E1 as (l1 & M1 & [= <-]). apply bind_Ok in E3 as (l3 & M3 & [= <-]).
    apply (L (CBin k) ops); auto; [|discriminate|].
    + apply Forall_forall. intros g Hg k' o x W Hx. refine (NN k' o x _ Hx). eapply W_bin; eauto.
    + intros g t I1 I2. apply A. eapply A_bin; eauto.
  - apply bind_Ok in E1 as (l1 & M1 & [= <-]). apply bind_Ok in E3 as (l3 & M3 & [= <-]). cbn [instantiate mk_not].
    rewrite (IHf (fun k o x W => NN k o x (W_not _ _ W)) (fun t H => A t (A_not _ _ H)) l1 l3 M1 M3). reflexivity.
  - apply bind_Ok in E1 as (l1 & M1 & [= <-]). apply bind_Ok in E3 as (l3 & M3 & [= <-]). cbn [instantiate mk_quant].
    rewrite (IHf (fun k o x W => NN k o x (W_quant _ _ _ _ W)) (fun t H => A t (A_quant _ _ _ _ H)) l1 l3 M1 M3). cbn.
    unfold mk_quant. now rewrite dedup_idem by apply var_eqb_equiv.
Qed.

Definition compose (m1 m2 : mapping) : mapping := map (fun ku => (fst ku, inst_term m2 (snd ku))) m1 ++ m2.
Lemma compose_term m1 m2 t : inst_term (compose m1 m2) t = inst_term m2 (inst_term m1 t).
Proof.
  destruct t as [n g|v]; [reflexivity|]. unfold compose. induction m1 as [|[k u] m1 IH]; [reflexivity|].
  cbn [map app inst_term dict_get fst snd] in *. destruct (term_eqb (TVar v) k); auto.
Qed.

(** only the images of the variables of the formula matter *)
Lemma inst_ext m m' f : (forall t, argument t f -> inst_term m t = inst_term m' t) -> instantiate m f = instantiate m' f.
Proof.
  induction f using form_ind'; intros A; cbn [instantiate]; auto.
  - f_equal. apply map_ext_in. intros t Ht. apply A. now constructor.
  - rewrite !A by constructor. reflexivity.
  - f_equal. apply map_ext_in. intros t Ht. apply A. now constructor.
  - f_equal. apply mapR_ext. intros g Hg. rewrite Forall_forall in H. apply H; auto. intros t Ht. apply A. eapply A_binfun; eauto.
  - f_equal. apply mapR_ext. intros g Hg. rewrite Forall_forall in H. apply H; auto. intros t Ht. apply A. eapply A_bin; eauto.
  - rewrite IHf; auto. intros t Ht. apply A. now constructor.
  - rewrite IHf; auto. intros t Ht. apply A. now constructor.
Qed.
(** the atoms of a built formula pass the checks of their constructors *)
Fixpoint aok (f : form) : Prop :=
  match f with
  | FPred n ts => mk_pred n ts = Ok f
  | FEq l r => mk_eq l r = Ok f
  | FNumFun n ts => mk_numfun n ts = Ok f
  | FNumVal _ => True
  | FBinFun _ ops | FBin _ ops => fold_right (fun g p => aok g /\ p) True ops
  | FNot g => aok g
  | FQuant _ _ c => aok c
  | FWhen c e => aok c /\ aok e
  | FForall _ e => aok e
  end.
Lemma aok_ops c f ops : ops_if c f = Some ops -> aok f -> Forall aok ops.
Proof. intros O. apply ops_if_raw in O. subst. destruct c; simpl; now rewrite fold_and_Forall. Qed.
Lemma built_aok f : built f -> aok f.
Proof.
  induction 1 using built_ind'; try exact I; try exact IHbuilt; try (split; auto).
  - pose proof (mk_pred_Ok _ _ _ H) as ->. exact H.
  - pose proof (mk_eq_Ok _ _ _ H) as ->. exact H.
  - pose proof (mk_numfun_Ok _ _ _ H) as ->. exact H.
  - apply (mk_op_P _ (CFun k)); auto. apply aok_ops. simpl. intros. now rewrite fold_and_Forall.
  - apply (mk_op_P _ (CBin k)); auto. apply aok_ops. simpl. intros. now rewrite fold_and_Forall.
Qed.
(** a mapping of other variables changes nothing *)
Lemma inst_same m f : built f -> plain f -> (forall v, argument (TVar v) f -> memb term_eqb (TVar v) (map fst m) = false) ->
  instantiate m f = Ok f.
Proof.
  intros B P K. assert (T : forall t, argument t f -> inst_term m t = t).
  { intros [n g|v] H; [reflexivity|]. cbn. specialize (K v H). rewrite dict_get_memb in K by apply term_eqb_equiv.
    now destruct (dict_get term_eqb (TVar v) m). }
  clear K. pose proof (built_nff f B) as N. apply built_aok in B. revert B P N T.
  assert (M : forall (h : term -> term) ts, (forall t, In t ts -> h t = t) -> map h ts = ts).
  { induction ts; cbn; intros H; auto. rewrite H by now left. f_equal. apply IHts. intros; apply H; now right. }
  assert (L : forall ops, Forall (fun f => aok f -> plain f -> nff f -> (forall t, argument t f -> inst_term m t = t) -> instantiate m f = Ok f) ops ->
    Forall aok ops -> Forall plain ops -> Forall nff ops -> (forall g t, In g ops -> argument t g -> inst_term m t = t) -> mapR (instantiate m) ops = Ok ops).
  { intros ops F F1 F2 F3 A. apply mapR_Ok. induction F; constructor.
    - inversion F1; inversion F2; inversion F3; subst. apply H; auto. intros t. apply A. now left.
    - inversion F1; inversion F2; inversion F3; subst. apply IHF; auto. intros g t I. apply A. now right. }
  induction f using form_ind'; intros B P N T; cbn [instantiate]; cbn [aok plain nff] in B, P, N; rewrite ?fold_and_Forall in *; try contradiction.
  - rewrite M by (intros; apply T; now constructor). exact B.
  - rewrite !T by constructor. exact B.
  - rewrite M by (intros; apply T; now constructor). exact B.
  - reflexivity.
  - destruct N as (N1 & N2). rewrite L; auto; [|intros g t I1 I2; apply T; eapply A_binfun; eauto]. cbn. f_equal. exact (mk_op_id (CFun k) ops N2).
  - destruct N as (N1 & N2). rewrite L; auto; [|intros g t I1 I2; apply T; eapply A_bin; eauto]. cbn. f_equal. exact (mk_op_id (CBin k) ops N2).
  - rewrite IHf; auto. intros t Ht. apply T. now constructor.
  - destruct N as (N1 & N2). rewrite IHf; auto; [|intros t Ht; apply T; now constructor]. cbn. unfold mk_quant. now rewrite dedup_id by (auto; apply var_eqb_equiv).
Qed.

(** ** the relational specification *)
Lemma image_inst m t u : is_dict m -> (image m t u <-> u = inst_term m t).
Proof.
  intros D. destruct t as [n g|v]; [cbn; split; [now inversion 1|intros ->; constructor]|]. cbn [inst_term].
  assert (G : forall k u, In (k, u) m -> term_eqb (TVar v) k = true -> dict_get term_eqb (TVar v) m = Some u).
  { induction D as [|[a b] m F D IH]; [now intros k w []|]. intros k w [[= <- <-]|H] E; cbn [dict_get].
    - now rewrite E.
    - destruct (term_eqb (TVar v) a) eqn:Q; [|eauto]. exfalso. rewrite Forall_forall in F. specialize (F _ H). cbn in F.
      rewrite (eqv_sym _ term_eqb_equiv) in Q. rewrite (eqv_trans _ term_eqb_equiv _ _ _ Q E) in F. discriminate. }
  destruct (dict_get term_eqb (TVar v) m) as [w|] eqn:W.
  - apply dict_get_In in W as (k & K & E). split.
    + inversion 1 as [|? k' ? H1 H2|? H1]; subst; [pose proof (G _ _ H1 H2); pose proof (G _ _ K E); congruence|].
      specialize (H1 _ _ K). congruence.
    + intros ->. now apply (Im_key m v k).
  - split.
    + inversion 1 as [|? k' ? H1 H2|? H1]; subst; auto. pose proof (G _ _ H1 H2). discriminate.
    + intros ->. apply Im_other. intros k u' K. destruct (term_eqb (TVar v) k) eqn:E; auto. pose proof (G _ _ K E). discriminate.
Qed.
Lemma dict_of_list_dict l : is_dict (dict_of_list term_eqb l).
Proof.
  assert (S : forall k v d, is_dict d -> is_dict (dict_set term_eqb k v d)).
  { intros k v d D. induction D as [|[a b] d F D IH]; cbn; [repeat constructor|]. destruct (term_eqb k a) eqn:E.
    - now constructor.
    - constructor; auto. apply Forall_forall. intros [a' b'] H. rewrite Forall_forall in F. cbn.
      assert (X : forall d, In (a', b') (dict_set term_eqb k v d) -> a' = k \/ exists w, In (a', w) d).
      { clear. intros d. induction d as [|[x y] d IH]; cbn; [intros [[= <- <-]|[]]; auto|].
        destruct (term_eqb k x); intros [[= <- <-]|H]; eauto. apply IH in H as [H|(w & H)]; eauto. }
      apply X in H as [->|(w & H)]; [now rewrite (eqv_sym _ term_eqb_equiv)|]. exact (F _ H). }
  unfold dict_of_list. assert (N : is_dict []) by constructor. revert N. generalize (@nil (term * term)).
  induction l as [|[k v] l IH]; cbn; auto.
Qed.

Lemma steps_image m1 m2 m f f1 g : is_dict m1 -> is_dict m2 -> is_dict m -> numeric_nodes f -> first_then m1 m2 m f ->
  instantiate m1 f = Ok f1 -> instantiate m f = Ok g -> instantiate m2 f1 = Ok g.
Proof.
  intros D1 D2 D N H. apply inst_steps; auto. intros t Ht. symmetry. apply (image_inst m); auto.
  apply (H t (inst_term m1 t)); auto; now apply image_inst.
Qed.
Lemma images_family m f : is_dict m -> consistent (images m f) -> consistent (family m f).
Proof.
  intros D C t u (t0 & A & ->) (u0 & B & ->). apply C; [exists t0|exists u0]; (split; [assumption|now apply image_inst]).
Qed.

(** ** renaming the parameters of an action first *)
Lemma rename_zip ps ws ts v : length ws = length ps -> length ts = length ps ->
  ForallOrdPairs (fun v w => var_eqb v w = false) ws -> (forall w, In w ws -> var_eqb v w = false) ->
  inst_term (dict_of_list term_eqb (combine ps ts)) (TVar v)
  = inst_term (dict_of_list term_eqb (combine (map TVar ws) ts)) (inst_term (dict_of_list term_eqb (combine ps (map TVar ws))) (TVar v)).
Proof.
  intros L1 L2 F N. unfold inst_term. rewrite !(dict_get_of_list _ term_eqb_equiv).
  assert (A : match dict_get term_eqb (TVar v) (rev (combine ps (map TVar ws))) with
              | None => dict_get term_eqb (TVar v) (rev (combine ps ts)) = None
              | Some u => exists w t, u = TVar w /\ In w ws /\ dict_get term_eqb (TVar v) (rev (combine ps ts)) = Some t
                   /\ dict_get term_eqb u (rev (combine (map TVar ws) ts)) = Some t
              end).
  { clear N. revert ws ts L1 L2 F. induction ps as [|p ps IH]; intros [|w ws] [|t ts] L1 L2 F; try discriminate; [reflexivity|].
    inversion F as [|? ? F1 F2]; subst. specialize (IH ws ts ltac:(cbn in *; lia) ltac:(cbn in *; lia) F2).
    cbn [map combine rev]. 
    assert (G : forall (k : term) l x y, dict_get term_eqb k (l ++ [(x, y)]) = match dict_get term_eqb k l with Some u => Some u | None => if term_eqb k x then Some y else @None term end).
    { intros k l x y. induction l as [|[a b] l IHl]; cbn; auto. destruct (term_eqb k a); auto. }
    rewrite !G. destruct (dict_get term_eqb (TVar v) (rev (combine ps (map TVar ws)))) as [u|].
    - destruct IH as (w' & t' & -> & I & -> & G2). exists w', t'. split; auto. split; [now right|]. split; auto.
      rewrite G, G2. reflexivity.
    - rewrite IH. destruct (term_eqb (TVar v) p) eqn:E; auto. exists w, t. split; auto. split; [now left|]. split; auto.
      rewrite G. destruct (dict_get term_eqb (TVar w) (rev (combine (map TVar ws) ts))) as [z|] eqn:Z.
      + exfalso. apply dict_get_In in Z as (k & K & E'). apply in_rev, in_combine_l in K. apply in_map_iff in K as (w' & <- & K).
        rewrite Forall_forall in F1. specialize (F1 w' K). cbn in E'. congruence.
      + now rewrite (eqv_refl _ term_eqb_equiv). }
  destruct (dict_get term_eqb (TVar v) (rev (combine ps (map TVar ws)))) as [u|].
  - destruct A as (w & t & -> & I & -> & G2). now rewrite G2.
  - rewrite A. destruct (dict_get term_eqb (TVar v) (rev (combine (map TVar ws) ts))) as [z|] eqn:Z; auto.
    exfalso. apply dict_get_In in Z as (k & K & E'). apply in_rev, in_combine_l in K. apply in_map_iff in K as (w' & <- & K).
    specialize (N w' K). cbn in E'. congruence.
Qed.
Lemma rename_action a ws ts a1 a' : (forall f, a_pre a = Some f \/ a_eff a = Some f -> numeric_nodes f) -> fresh_for a ws ->
  action_instantiate a (map TVar ws) = Ok a1 -> action_instantiate a ts = Ok a' -> action_instantiate a1 ts = Ok a'.
Proof.
  intros N [F1 F2] H1 H2. pose proof H2 as H3. unfold action_instantiate in H3. apply bind_Ok in H3 as (_ & _ & H3).
  apply bind_Ok in H3 as (p3 & _ & H3). apply bind_Ok in H3 as (q3 & _ & H3). unfold mk_action in H3.
  apply bind_Ok in H3 as (n3 & PN & _). 
  apply action_instantiate_inv in H1 as (L1 & N1 & P1 & A1 & B1), H2 as (L2 & N2 & P2 & A2 & B2). rewrite map_length in L1.
  unfold action_instantiate. rewrite P1, map_length. replace (length ts) with (length ws) by congruence. rewrite PeanoNat.Nat.eqb_refl. cbn [check bind].
  assert (X : forall o o1 o', (forall f, o = Some f -> numeric_nodes f /\ forall t, argument t f ->
     inst_term (mapping_of a ts) t = inst_term (dict_of_list term_eqb (combine (map TVar ws) ts)) (inst_term (mapping_of a (map TVar ws)) t)) ->
     inst_opt (mapping_of a (map TVar ws)) o = Ok o1 -> inst_opt (mapping_of a ts) o = Ok o' ->
     inst_opt (dict_of_list term_eqb (combine (map TVar ws) ts)) o1 = Ok o').
  { intros [f|] o1 o' HF E1 E2; cbn in E1, E2; [|injection E1 as <-; injection E2 as <-; reflexivity].
    apply bind_Ok in E1 as (f1 & E1 & [= <-]). apply bind_Ok in E2 as (f' & E2 & [= <-]). destruct (HF f eq_refl) as (HN & HA).
    cbn. rewrite (inst_steps _ _ _ f HN HA _ _ E1 E2). reflexivity. }
  assert (Y : forall f, a_pre a = Some f \/ a_eff a = Some f -> forall t, argument t f ->
     inst_term (mapping_of a ts) t = inst_term (dict_of_list term_eqb (combine (map TVar ws) ts)) (inst_term (mapping_of a (map TVar ws)) t)).
  { intros f Hf [n g|v] Ht; [reflexivity|]. apply rename_zip; auto; try congruence. intros w Hw. apply (F2 v w f); auto. }
  rewrite (X _ _ _ (fun f E => conj (N f (or_introl E)) (Y f (or_introl E))) A1 A2).
  rewrite (X _ _ _ (fun f E => conj (N f (or_intror E)) (Y f (or_intror E))) B1 B2). cbn [Py.bind].
  unfold mk_action. rewrite N1, PN. cbn. apply parse_name_id in PN. subst n3. f_equal. destruct a'. cbn in *. congruence.
Qed.
