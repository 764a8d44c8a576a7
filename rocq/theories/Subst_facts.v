(** Instantiation: equal formulas give equal results; two steps are one. *)
From Coq Require Import String List Bool Lia.
From Verif Require Import Py Names Logic Validation Sem Spec Built Py_facts Logic_facts Ops_facts Built_facts NF_facts Spec_Core Inst_facts.
Import ListNotations.
Open Scope string_scope.
Open Scope list_scope.

(** ** first occurrences *)
Section Dedup.
  Context {A : Type} (eqb : A -> A -> bool) (E : is_equiv eqb).
  Let leq := list_eqb eqb.

  Lemma list_eqb_Forall2 l m : list_eqb eqb l m = true <-> Forall2 (fun x y => eqb x y = true) l m.
  Proof.
    revert m. induction l as [|x l IH]; intros [|y m]; cbn; split; intros H; auto; try discriminate; try (inversion H; fail).
    - apply andb_true_iff in H as [H1 H2]. constructor; auto. now apply IH.
    - inversion H; subst. apply andb_true_iff. split; auto. now apply IH.
  Qed.
  Lemma memb_cong2 x y s t : eqb x y = true -> leq s t = true -> memb eqb x s = memb eqb y t.
  Proof.
    intros Q H. apply list_eqb_Forall2 in H. unfold memb in *. induction H as [|a b s t H H' IH]; cbn; auto. rewrite IH. f_equal.
    rewrite (equiv_cong _ E _ _ Q). now rewrite (equiv_cong_r _ E _ _ H).
  Qed.
  Lemma dedup_from_cong l : forall m s t, leq l m = true -> leq s t = true ->
    leq (dedup_from eqb s l) (dedup_from eqb t m) = true.
  Proof.
    induction l as [|x l IH]; intros [|y m] s t H S; try discriminate; auto. cbn in H. apply andb_true_iff in H as [H1 H2].
    cbn. rewrite (memb_cong2 x y s t H1 S). destruct (memb eqb y t); auto.
    cbn. rewrite H1. cbn. apply IH; auto. cbn. now rewrite H1.
  Qed.
  Lemma dedup_cong l m : leq l m = true -> leq (dedup eqb l) (dedup eqb m) = true.
  Proof. intros H. now apply dedup_from_cong. Qed.

  Lemma memb_cons x a l : memb eqb x (a :: l) = eqb x a || memb eqb x l.
  Proof. reflexivity. Qed.
  Lemma dedup_from_ext l : forall s t, (forall x, memb eqb x s = memb eqb x t) -> dedup_from eqb s l = dedup_from eqb t l.
  Proof.
    induction l as [|x l IH]; intros s t H; cbn; auto. rewrite H. destruct (memb eqb x t); auto.
    f_equal. apply IH. intros y. rewrite !memb_cons. now rewrite H.
  Qed.
  Lemma dedup_from_app l : forall s m, dedup_from eqb s (l ++ m) = dedup_from eqb s l ++ dedup_from eqb (l ++ s) m.
  Proof.
    induction l as [|x l IH]; intros s m; cbn; auto. destruct (memb eqb x s) eqn:M.
    - rewrite IH. f_equal. apply dedup_from_ext. intros y. rewrite memb_cons, !memb_app.
      destruct (eqb y x) eqn:Y; auto. rewrite (memb_cong2 _ _ s s Y) by (apply (eqv_refl _ (list_eqb_equiv _ E))).
      rewrite M. now rewrite orb_true_r.
    - cbn. f_equal. rewrite IH. f_equal. apply dedup_from_ext. intros y. cbn [app]. rewrite memb_cons, !memb_app, memb_cons.
      destruct (eqb y x), (memb eqb y l); auto.
  Qed.
  Lemma dedup_from_known l : forall s m, (forall x, In x l -> memb eqb x s = true) -> dedup_from eqb s (l ++ m) = dedup_from eqb s m.
  Proof.
    induction l as [|x l IH]; intros s m H; cbn; auto. rewrite H by now left. apply IH. intros; apply H; now right.
  Qed.

  (** dropping repetitions before or after a map to lists *)
  Lemma dedup_flat_map {B} (eqB : B -> B -> bool) (EB : is_equiv eqB) (h : B -> list A) l : forall seen s,
    (forall x y, In x (l ++ seen) -> In y (l ++ seen) -> eqB x y = true -> leq (h x) (h y) = true) ->
    (forall x y, In x seen -> In y (h x) -> memb eqb y s = true) ->
    dedup_from eqb s (flat_map h (dedup_from eqB seen l)) = dedup_from eqb s (flat_map h l).
  Proof.
    induction l as [|x l IH]; intros seen s R K; cbn; auto. destruct (memb eqB x seen) eqn:M.
    - rewrite dedup_from_known.
      + apply IH; auto. intros a b Ia Ib. apply R; now right.
      + intros y Iy. apply memb_In in M as (x' & Ix' & Q). apply R in Q; [|now left|right; apply in_or_app; now right].
        apply list_eqb_Forall2 in Q.
        assert (exists y', In y' (h x') /\ eqb y y' = true) as (y' & I' & Y).
        { revert Q Iy. generalize (h x) (h x'). intros l1 l2 Q Iy. induction Q as [|a b l1 l2 H Q IHQ]; [destruct Iy|]. destruct Iy as [<-|Iy]; [exists b; split; auto; now left|].
          destruct (IHQ Iy) as (y' & I' & Y). exists y'. split; auto. now right. }
        rewrite (memb_cong2 y y' s s Y) by (apply (eqv_refl _ (list_eqb_equiv _ E))). eauto.
    - cbn. rewrite !dedup_from_app. f_equal. apply IH.
      + intros a b Ia Ib. apply R; (apply in_app_or in Ia as [Ia|[Ia|Ia]] || idtac); (apply in_app_or in Ib as [Ib|[Ib|Ib]] || idtac);
          subst; cbn; rewrite in_app_iff; auto.
      + intros a b [<-|Ia] Ib; rewrite memb_app; apply orb_true_iff.
        * left. apply memb_In. exists b. split; auto. apply (eqv_refl _ E).
        * right. eauto.
  Qed.
  Lemma dedup_from_dedup l : forall s, dedup_from eqb s (dedup eqb l) = dedup_from eqb s l.
  Proof.
    intros s. pose proof (dedup_flat_map eqb E (fun x => [x]) l [] s) as H. rewrite !flat_map_concat_map in H.
    assert (C : forall l : list A, concat (map (fun x => [x]) l) = l) by (induction l0; cbn; congruence).
    rewrite !C in H. apply H; [|intros ? ? []]. intros x y _ _ Q. cbn. now rewrite Q.
  Qed.
End Dedup.

(** ** constructors and == *)
Lemma ops_if_cong c f g : form_eqb f g = true ->
  match ops_if c f, ops_if c g with
  | Some l, Some m => list_eqb form_eqb l m = true
  | None, None => True
  | _, _ => False
  end.
Proof.
  destruct c, f; destruct g; cbn; try discriminate; auto; intros H; apply andb_true_iff in H as [H1 H2].
  - apply bop_eqb_eq in H1. subst. destruct (bop_eqb k k1); auto.
  - apply bfun_eqb_eq in H1. subst. destruct (bfun_eqb k k1); auto.
Qed.
Lemma leaves_cong c f : forall g, form_eqb f g = true -> list_eqb form_eqb (leaves c f) (leaves c g) = true.
Proof.
  induction f using form_ind'; intros g E; rewrite !leaves_ops_if; pose proof (ops_if_cong c _ _ E) as O;
    match goal with |- context [ops_if c ?f] => destruct (ops_if c f) as [l1|] eqn:Q1 end;
    destruct (ops_if c g) as [l2|]; try contradiction; try (cbn [list_eqb]; now rewrite E);
    try (destruct c; discriminate).
  - assert (l1 = ops) as -> by (destruct c; cbn in Q1; try discriminate; destruct (bfun_eqb _ _); congruence).
    clear - H O. apply list_eqb_Forall2 in O. apply list_eqb_Forall2.
    induction O as [|a b l m Q O IH]; cbn; [constructor|]. inversion H; subst. apply Forall2_app; auto.
    apply list_eqb_Forall2; auto.
  - assert (l1 = ops) as -> by (destruct c; cbn in Q1; try discriminate; destruct (bop_eqb _ _); congruence).
    clear - H O. apply list_eqb_Forall2 in O. apply list_eqb_Forall2.
    induction O as [|a b l m Q O IH]; cbn; [constructor|]. inversion H; subst. apply Forall2_app; auto.
    apply list_eqb_Forall2; auto.
Qed.
Lemma flat_leaves_cong c l m : list_eqb form_eqb l m = true ->
  list_eqb form_eqb (flat_map (leaves c) l) (flat_map (leaves c) m) = true.
Proof.
  intros O. apply list_eqb_Forall2 in O. apply list_eqb_Forall2. induction O; cbn; [constructor|].
  apply Forall2_app; auto. apply list_eqb_Forall2. now apply leaves_cong.
Qed.
Lemma raw_cong c l m : list_eqb form_eqb l m = true -> form_eqb (raw_node c l) (raw_node c m) = true.
Proof. intros H. destruct c as [k|k]; cbn; rewrite H; destruct k; reflexivity. Qed.
Lemma list_eqb_refl_f l : list_eqb form_eqb l l = true.
Proof. apply (eqv_refl _ (list_eqb_equiv _ form_eqb_equiv)). Qed.

Definition node (c : opcls) (idem : bool) (l : list form) : form :=
  match l with [x] => if idem then x else raw_node c [x] | l => raw_node c l end.
Lemma mk_op_node c ops : mk_op c ops
  = match metaclass c with None => raw_node c ops | Some idem => node c idem (simplify_operands c idem ops) end.
Proof. unfold mk_op, node. destruct (metaclass c) as [idem|]; auto. now destruct (simplify_operands c idem ops) as [|x [|y l]]. Qed.
Lemma node_cong c idem l m : list_eqb form_eqb l m = true -> form_eqb (node c idem l) (node c idem m) = true.
Proof.
  intros H. pose proof (raw_cong c _ _ H) as R. unfold node. destruct l as [|x [|x' l]], m as [|y [|y' m]]; cbn in H; try discriminate; auto.
  - destruct idem; auto. now rewrite andb_true_r in H.
  - rewrite andb_false_r in H. discriminate.
  - rewrite andb_false_r in H. discriminate.
Qed.
Lemma mk_op_cong c l m : list_eqb form_eqb l m = true -> form_eqb (mk_op c l) (mk_op c m) = true.
Proof.
  intros H. rewrite !mk_op_node. destruct (metaclass c) as [idem|]; [|now apply raw_cong].
  apply node_cong. rewrite !simplify_spec.
  assert (D : list_eqb form_eqb (if idem then dedup form_eqb l else l) (if idem then dedup form_eqb m else m) = true).
  { destruct idem; auto. apply dedup_cong; auto. apply form_eqb_equiv. }
  clear H. revert D. generalize (if idem then dedup form_eqb l else l) (if idem then dedup form_eqb m else m). clear l m. intros l m D.
  destruct l as [|x [|x' l]], m as [|y [|y' m]]; cbn in D; try discriminate; auto.
  - rewrite andb_false_r in D. discriminate.
  - rewrite andb_false_r in D. discriminate.
  - apply dedup_cong; [apply form_eqb_equiv|]. apply flat_leaves_cong. exact D.
Qed.

(** ** equal formulas have equal instances *)
Definition same_mapping (m m' : mapping) : Prop :=
  forall t u, term_eqb t u = true -> term_eqb (inst_term m t) (inst_term m' u) = true.
Definition inst_term_cong (m m' : mapping) t u (M : same_mapping m m') := M t u.
(** equal dictionaries *)
Lemma same_mapping_dict m m' : dict_same term_eqb term_eqb m m' -> same_mapping m m'.
Proof.
  intros M t u E. unfold inst_term. destruct t as [n g|v], u as [n' g'|w]; cbn in E; try discriminate; auto.
  assert (Q : term_eqb (TVar v) (TVar w) = true) by exact E. clear E.
  specialize (M (TVar w)). rewrite (dict_get_cong _ term_eqb_equiv _ _ m Q).
  destruct (dict_get term_eqb (TVar w) m), (dict_get term_eqb (TVar w) m'); cbn in M; auto; discriminate.
Qed.
Lemma same_mapping_refl m : same_mapping m m.
Proof. apply same_mapping_dict, dict_same_refl, term_eqb_equiv. Qed.
(** the mappings of equal parameters to equal terms *)
Lemma same_mapping_zip ps qs ts us : list_eqb term_eqb ps qs = true -> list_eqb term_eqb ts us = true ->
  same_mapping (dict_of_list term_eqb (combine ps ts)) (dict_of_list term_eqb (combine qs us)).
Proof.
  intros P T. apply same_mapping_dict. intros k. rewrite !(dict_get_of_list _ term_eqb_equiv).
  apply list_eqb_Forall2 in P, T.
  assert (Z : Forall2 (fun a b => term_eqb (fst a) (fst b) = true /\ term_eqb (snd a) (snd b) = true) (combine ps ts) (combine qs us)).
  { revert ts us T. induction P; intros ts us T; cbn; [constructor|]. destruct T; constructor; auto. }
  assert (R : Forall2 (fun a b => term_eqb (fst a) (fst b) = true /\ term_eqb (snd a) (snd b) = true) (rev (combine ps ts)) (rev (combine qs us))).
  { clear P T. induction Z; cbn; [constructor|]. apply Forall2_app; auto. }
  clear P T Z. induction R as [|[a b] [a' b'] l l' [H1 H2] R IH]; [reflexivity|]. cbn [dict_get]. cbn in H1, H2.
  rewrite (equiv_cong_r _ term_eqb_equiv _ _ H1). destruct (term_eqb k a'); auto.
Qed.
Lemma inst_terms_cong m m' ts us : same_mapping m m' -> list_eqb term_eqb ts us = true ->
  list_eqb term_eqb (map (inst_term m) ts) (map (inst_term m') us) = true.
Proof.
  intros M H. apply list_eqb_Forall2 in H. apply list_eqb_Forall2. induction H; cbn; constructor; auto.
Qed.
Lemma mapR_inst_cong m m' ops : Forall (fun f => forall g f' g', form_eqb f g = true ->
     instantiate m f = Ok f' -> instantiate m' g = Ok g' -> form_eqb f' g' = true) ops ->
  forall ops0 l l', list_eqb form_eqb ops ops0 = true -> mapR (instantiate m) ops = Ok l ->
  mapR (instantiate m') ops0 = Ok l' -> list_eqb form_eqb l l' = true.
Proof.
  intros F ops0 l l' E M1 M2. apply list_eqb_Forall2 in E. apply mapR_Ok in M1, M2. apply list_eqb_Forall2.
  revert l l' M1 M2. induction E as [|x y ops ops0 Q E IH]; intros l l' M1 M2; inversion M1; inversion M2; inversion F; subst;
    constructor; eauto.
Qed.
Lemma dedup_var_set vs ws : set_eqb var_eqb vs ws = true -> set_eqb var_eqb (dedup var_eqb vs) (dedup var_eqb ws) = true.
Proof.
  intros H. pose proof (set_eqb_equiv _ var_eqb_equiv) as E. pose proof (dedup_set_eqb _ var_eqb_equiv vs) as V.
  pose proof (dedup_set_eqb _ var_eqb_equiv ws) as W. rewrite (eqv_sym _ E) in W.
  eapply (eqv_trans _ E); [exact V|]. eapply (eqv_trans _ E); [exact H|exact W].
Qed.
Lemma instantiate_cong m m' f : same_mapping m m' -> forall g f' g', form_eqb f g = true ->
  instantiate m f = Ok f' -> instantiate m' g = Ok g' -> form_eqb f' g' = true.
Proof.
  intros M. induction f using form_ind'; intros g f' g' E I1 I2; destruct g; cbn in E; try discriminate; cbn [instantiate] in I1, I2; try discriminate.
  - apply andb_true_iff in E as [E1 E2]. apply mk_pred_Ok in I1, I2. subst. cbn. rewrite E1. cbn. now apply inst_terms_cong.
  - apply andb_true_iff in E as [E1 E2]. apply mk_eq_Ok in I1, I2. subst. cbn. now rewrite !inst_term_cong.
  - apply andb_true_iff in E as [E1 E2]. apply mk_numfun_Ok in I1, I2. subst. cbn. rewrite E1. cbn. now apply inst_terms_cong.
  - injection I1 as <-. injection I2 as <-. exact E.
  - apply andb_true_iff in E as [E1 E2]. apply bfun_eqb_eq in E1. subst.
    apply bind_Ok in I1 as (l & M1 & [= <-]). apply bind_Ok in I2 as (l' & M2 & [= <-]).
    apply (mk_op_cong (CFun k0)). exact (mapR_inst_cong m m' ops H _ _ _ E2 M1 M2).
  - apply andb_true_iff in E as [E1 E2]. apply bop_eqb_eq in E1. subst.
    apply bind_Ok in I1 as (l & M1 & [= <-]). apply bind_Ok in I2 as (l' & M2 & [= <-]).
    apply (mk_op_cong (CBin k0)). exact (mapR_inst_cong m m' ops H _ _ _ E2 M1 M2).
  - apply bind_Ok in I1 as (l & M1 & [= <-]). apply bind_Ok in I2 as (l' & M2 & [= <-]). cbn. eauto.
  - apply andb_true_iff in E as [E1 E3]. apply andb_true_iff in E1 as [E1 E2].
    apply bind_Ok in I1 as (l & M1 & [= <-]). apply bind_Ok in I2 as (l' & M2 & [= <-]). cbn.
    rewrite E1, (dedup_var_set _ _ E2). cbn. eauto.
Qed.
