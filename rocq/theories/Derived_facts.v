(** Proofs for C27 and C28. *)
From Coq Require Import String List Bool Arith Lia.
From Verif Require Import Py Names Reqs Logic Validation Core Lexer TypedList UpdateTags Parser.
From Verif Require Import Built Py_facts Logic_facts Names_facts Ops_facts Built_facts NF_facts.
From Verif Require Import GD_facts Spec_Parse TypedList_facts Parse_facts Spec_Derived.
Import ListNotations.
Open Scope string_scope.
Open Scope list_scope.

(** ** retagging as a plain map *)
Definition retag_term (e : tagenv) (t : term) : term :=
  match t with
  | TVar v => match e (v_name v) with Some gs => TVar (mkVar (v_name v) gs) | None => t end
  | TConst _ _ => t
  end.
Fixpoint retag (e : tagenv) (f : form) : form :=
  match f with
  | FPred n ts => FPred n (map (retag_term e) ts)
  | FEq l r => FEq (retag_term e l) (retag_term e r)
  | FNumFun n ts => FNumFun n (map (retag_term e) ts)
  | FNumVal v => FNumVal v
  | FBinFun k ops => FBinFun k (map (retag e) ops)
  | FBin k ops => FBin k (map (retag e) ops)
  | FNot g => FNot (retag e g)
  | FQuant q vs c => FQuant q vs (retag (below vs e) c)
  | FWhen c g => FWhen (retag e c) (retag e g)
  | FForall vs g => FForall vs (retag (below vs e) g)
  end.

Definition term_uniform (p : string -> list string) (t : term) : Prop :=
  match t with TVar v => v_tags v = p (v_name v) | TConst _ _ => True end.
(** all occurrences of a name carry the same tags *)
Fixpoint uniform (p : string -> list string) (f : form) : Prop :=
  match f with
  | FPred _ ts | FNumFun _ ts => Forall (term_uniform p) ts
  | FEq l r => term_uniform p l /\ term_uniform p r
  | FNumVal _ => True
  | FBinFun _ ops | FBin _ ops => fold_right (fun g q => uniform p g /\ q) True ops
  | FNot g => uniform p g
  | FQuant _ _ c => uniform p c
  | FWhen c g => uniform p c /\ uniform p g
  | FForall _ g => uniform p g
  end.
(** binders have distinct names and duplicate-free tags *)
Definition binder_ok (vs : list var) : Prop :=
  NoDup (map v_name vs) /\ Forall (fun v => NoDup (v_tags v)) vs.
Fixpoint binders_ok (f : form) : Prop :=
  match f with
  | FBinFun _ ops | FBin _ ops => fold_right (fun g q => binders_ok g /\ q) True ops
  | FNot g => binders_ok g
  | FQuant _ vs c => binder_ok vs /\ binders_ok c
  | FWhen c g => binders_ok c /\ binders_ok g
  | FForall vs g => binder_ok vs /\ binders_ok g
  | _ => True
  end.

Lemma strip_retag_term e t : strip_term (retag_term e t) = strip_term t.
Proof. destruct t as [|v]; simpl; auto. destruct (e (v_name v)); auto. Qed.
Lemma strip_retag f : forall e, strip (retag e f) = strip f.
Proof.
  induction f using form_ind'; intros e; simpl; auto.
  - f_equal. rewrite map_map. apply map_ext. intros. apply strip_retag_term.
  - now rewrite !strip_retag_term.
  - f_equal. rewrite map_map. apply map_ext. intros. apply strip_retag_term.
  - f_equal. rewrite map_map. apply map_ext_Forall. eapply Forall_impl; [|exact H]. auto.
  - f_equal. rewrite map_map. apply map_ext_Forall. eapply Forall_impl; [|exact H]. auto.
  - now rewrite IHf.
  - now rewrite IHf.
  - now rewrite IHf1, IHf2.
  - now rewrite IHf.
Qed.

(** strip is compatible with equality *)
Lemma strip_term_eq t u : term_eqb t u = true -> term_eqb (strip_term t) (strip_term u) = true.
Proof.
  destruct t, u; simpl; auto. unfold var_eqb. simpl. intros H.
  apply andb_prop in H as [-> _]. reflexivity.
Qed.

(** two retagged formulas that are equal were equal *)
Lemma retag_term_inj p e e' t u : term_uniform p t -> term_uniform p u ->
  term_eqb (retag_term e t) (retag_term e' u) = true -> term_eqb t u = true.
Proof.
  intros T U H. apply strip_term_eq in H. rewrite !strip_retag_term in H.
  destruct t as [n g|v], u as [m g'|w]; simpl in *; try discriminate; auto.
  unfold var_eqb in *. simpl in H. apply andb_prop in H as [H _]. apply andb_true_intro.
  split; auto. apply String.eqb_eq in H. rewrite T, U, H. apply set_eqb_string. tauto.
Qed.
Lemma retag_terms_inj p e e' ts : forall us,
  Forall (term_uniform p) ts -> Forall (term_uniform p) us ->
  list_eqb term_eqb (map (retag_term e) ts) (map (retag_term e') us) = true ->
  list_eqb term_eqb ts us = true.
Proof.
  induction ts as [|t ts IH]; destruct us as [|u us]; simpl; auto. intros F G H.
  inversion F; inversion G; subst. apply andb_prop in H as [K1 K2]. apply andb_true_intro.
  split; eauto using retag_term_inj.
Qed.
Lemma retag_inj p f : forall g e e', uniform p f -> uniform p g ->
  form_eqb (retag e f) (retag e' g) = true -> form_eqb f g = true.
Proof.
  assert (L : forall ops, Forall (fun f => forall g e e', uniform p f -> uniform p g ->
     form_eqb (retag e f) (retag e' g) = true -> form_eqb f g = true) ops ->
     forall ops' e e', Forall (uniform p) ops -> Forall (uniform p) ops' ->
     list_eqb form_eqb (map (retag e) ops) (map (retag e') ops') = true ->
     list_eqb form_eqb ops ops' = true).
  { induction 1; destruct ops'; simpl; auto. intros e e' F G Q. inversion F; inversion G; subst.
    apply andb_prop in Q as [Q1 Q2]. apply andb_true_intro. split; eauto. }
  induction f using form_ind'; destruct g; intros e e' U V Q; simpl in *; try discriminate; auto.
  - apply andb_prop in Q as [Q1 Q2]. rewrite Q1. simpl. eapply retag_terms_inj; eauto.
  - destruct U, V. apply andb_prop in Q as [Q1 Q2].
    apply andb_true_intro. split; eapply retag_term_inj; eauto.
  - apply andb_prop in Q as [Q1 Q2]. rewrite Q1. simpl. eapply retag_terms_inj; eauto.
  - rewrite fold_and_Forall in U, V. apply andb_prop in Q as [Q1 Q2]. rewrite Q1. simpl. eauto.
  - rewrite fold_and_Forall in U, V. apply andb_prop in Q as [Q1 Q2]. rewrite Q1. simpl. eauto.
  - eauto.
  - apply andb_prop in Q as [Q Q2]. rewrite Q. simpl. eauto.
  - destruct U, V. apply andb_prop in Q as [Q1 Q2]. apply andb_true_intro. eauto.
  - apply andb_prop in Q as [Q1 Q2]. rewrite Q1. simpl. eauto.
Qed.

Lemma retag_term_ext e e' : (forall n, e n = e' n) -> forall t, retag_term e t = retag_term e' t.
Proof. intros H [|v]; simpl; auto. now rewrite H. Qed.
Lemma retag_ext f : forall e e', (forall n, e n = e' n) -> retag e f = retag e' f.
Proof.
  assert (B : forall vs e e', (forall n, e n = e' n) -> forall n, below vs e n = below vs e' n).
  { intros vs e e' H n. unfold below. destruct (find _ vs); auto. }
  induction f using form_ind'; intros e e' X; simpl; auto.
  - f_equal. apply map_ext. now apply retag_term_ext.
  - now rewrite !(retag_term_ext e e').
  - f_equal. apply map_ext. now apply retag_term_ext.
  - f_equal. apply map_ext_Forall. eapply Forall_impl; [|exact H]. auto.
  - f_equal. apply map_ext_Forall. eapply Forall_impl; [|exact H]. auto.
  - f_equal. auto.
  - f_equal. auto.
  - f_equal; auto.
  - f_equal. auto.
Qed.

(** ** update_type_tags is retagging *)
Definition lookup (m : tagmap) : tagenv :=
  fun n => option_map (dedup String.eqb) (dict_get String.eqb n m).

Lemma dict_get_set_s {V} k k' (v : V) d :
  dict_get String.eqb k (dict_set String.eqb k' v d)
  = if String.eqb k k' then Some v else dict_get String.eqb k d.
Proof. apply dict_get_set. apply string_eqb_equiv. Qed.

Lemma bind_vars_lookup vs : binder_ok vs ->
  forall m n, lookup (bind_vars m vs) n = below vs (lookup m) n.
Proof.
  intros [D T]. unfold bind_vars. induction vs as [|v vs IH]; intros m n; simpl; auto.
  inversion D; inversion T; subst. rewrite IH by auto. unfold below at 1. unfold below at 1. simpl.
  destruct (String.eqb_spec (v_name v) n) as [E|N].
  - subst n. destruct (find _ vs) as [w|] eqn:F.
    + apply find_some in F as [F1 F2]. apply String.eqb_eq in F2. exfalso.
      match goal with H : ~ In _ _ |- _ => apply H end. apply in_map_iff. exists w. auto.
    + unfold lookup. rewrite dict_get_set_s, String.eqb_refl. simpl.
      now rewrite dedup_string_id.
  - destruct (find _ vs); auto. unfold lookup. rewrite dict_get_set_s.
    destruct (String.eqb_spec n (v_name v)); congruence.
Qed.

Lemma replace_term_retag m t t' : replace_term m t = Ok t' ->
  t' = retag_term (lookup m) t.
Proof.
  destruct t as [|v]; simpl; [congruence|].
  destruct (dict_get String.eqb (v_name v) m) as [gs|] eqn:D; unfold lookup; rewrite D; simpl;
    [|congruence].
  intros H. apply bind_Ok in H as (v' & V & H). inversion H; subst.
  unfold with_type_tags in V. apply mk_var_Ok in V as (-> & _). reflexivity.
Qed.
Lemma replace_terms_retag m ts ts' : mapR (replace_term m) ts = Ok ts' ->
  ts' = map (retag_term (lookup m)) ts.
Proof.
  intros H. apply mapR_Ok in H. induction H; simpl; auto. f_equal; auto.
  now apply replace_term_retag.
Qed.

Lemma ops_if_retag c e f : ops_if c f = None -> ops_if c (retag e f) = None.
Proof. destruct c, f; simpl; auto; destruct (_ k k0); congruence. Qed.

Lemma update_retag p f : forall m f', nff f -> uniform p f -> binders_ok f ->
  update_type_tags m f = Ok f' -> f' = retag (lookup m) f.
Proof.
  assert (L : forall ops, Forall (fun f => forall m f', nff f -> uniform p f ->
      binders_ok f -> update_type_tags m f = Ok f' -> f' = retag (lookup m) f) ops ->
    forall m ops', Forall nff ops -> Forall (uniform p) ops -> Forall binders_ok ops ->
    mapR (update_type_tags m) ops = Ok ops' -> ops' = map (retag (lookup m)) ops).
  { intros ops IH m ops' N U B R. apply mapR_Ok in R.
    induction R; simpl; auto. inversion IH; inversion N; inversion U; inversion B; subst.
    f_equal; auto. }
  assert (NM : forall c e ops, Forall (uniform p) ops -> nfn c ops -> nfn c (map (retag e) ops)).
  { intros c e ops U N. apply nfn_map; auto.
    - intros. now apply ops_if_retag.
    - intros g h Hg Hh Q. rewrite Forall_forall in U. eapply retag_inj; eauto. }
  induction f using form_ind'; intros m f' N U B; cbn [update_type_tags retag];
    intros H0; try discriminate.
  - apply bind_Ok in H0 as (ts' & T & H0). apply mk_pred_Ok in H0. subst.
    f_equal. now apply replace_terms_retag.
  - apply bind_Ok in H0 as (l' & T & H0). apply bind_Ok in H0 as (r' & T' & H0).
    apply mk_eq_Ok in H0. subst. f_equal; now apply replace_term_retag.
  - apply bind_Ok in H0 as (ts' & T & H0). apply mk_numfun_Ok in H0. subst.
    f_equal. now apply replace_terms_retag.
  - now inversion H0.
  - apply bind_Ok in H0 as (ops' & T & H0). inversion H0; subst. simpl in N, U, B.
    rewrite fold_and_Forall in N, U, B. destruct N as [N1 N2].
    rewrite (L ops H m ops'); auto. exact (mk_op_id (CFun k) _ (NM _ _ _ U N2)).
  - apply bind_Ok in H0 as (ops' & T & H0). inversion H0; subst. simpl in N, U, B.
    rewrite fold_and_Forall in N, U, B. destruct N as [N1 N2].
    rewrite (L ops H m ops'); auto. exact (mk_op_id (CBin k) _ (NM _ _ _ U N2)).
  - apply bind_Ok in H0 as (g' & T & H0). inversion H0; subst. unfold mk_not. f_equal.
    eapply IHf; eauto.
  - apply bind_Ok in H0 as (g' & T & H0). inversion H0; subst. simpl in N, U, B.
    destruct N as [N1 N2], B as [B1 B2]. unfold mk_quant.
    rewrite (dedup_id _ var_eqb_equiv) by auto. f_equal.
    apply IHf in T; auto. subst. apply retag_ext. now apply bind_vars_lookup.
Qed.

(** ** scoping of a retagged formula *)
Lemma retag_term_scoped p e e' t : term_uniform p t ->
  (forall n gs, e' n = Some gs -> e n = Some gs \/ (e n = None /\ p n = gs)) ->
  term_scoped e' (retag_term e t).
Proof.
  intros U H. destruct t as [|v]; simpl; auto.
  destruct (e (v_name v)) as [gs|] eqn:E; simpl.
  - destruct (e' (v_name v)) as [gs'|] eqn:E'; auto.
    apply H in E' as [X|[X _]]; congruence.
  - destruct (e' (v_name v)) as [gs'|] eqn:E'; auto.
    apply H in E' as [X|[_ X]]; [congruence|]. simpl in U. congruence.
Qed.
Lemma retag_scoped p f : forall e e', uniform p f ->
  (forall n gs, e' n = Some gs -> e n = Some gs \/ (e n = None /\ p n = gs)) ->
  scoped e' (retag e f).
Proof.
  assert (B : forall vs e e',
     (forall n gs, e' n = Some gs -> e n = Some gs \/ (e n = None /\ p n = gs)) ->
     (forall n gs, below vs e' n = Some gs -> below vs e n = Some gs
                                              \/ (below vs e n = None /\ p n = gs))).
  { intros vs e e' H n gs. unfold below. destruct (find _ vs); auto. }
  induction f using form_ind'; intros e e' U X; simpl in *; auto.
  - apply Forall_forall. intros x Hx. apply in_map_iff in Hx as (t & <- & Ht).
    rewrite Forall_forall in U. eapply retag_term_scoped; eauto.
  - destruct U. split; eapply retag_term_scoped; eauto.
  - apply Forall_forall. intros x Hx. apply in_map_iff in Hx as (t & <- & Ht).
    rewrite Forall_forall in U. eapply retag_term_scoped; eauto.
  - rewrite fold_and_Forall in *. apply Forall_forall. intros x Hx.
    apply in_map_iff in Hx as (g & <- & Hg). rewrite Forall_forall in *. eauto.
  - rewrite fold_and_Forall in *. apply Forall_forall. intros x Hx.
    apply in_map_iff in Hx as (g & <- & Hg). rewrite Forall_forall in *. eauto.
  - eapply IHf; [exact U|]. now apply B.
  - destruct U. split; eauto.
  - eapply IHf; [exact U|]. now apply B.
Qed.

(** ** parsed conditions *)
Definition stale_tags (st : dstate) (n : string) : list string :=
  match dict_get String.eqb n (s_params st) with Some v => v_tags v | None => [] end.
(** the parameters are indexed by their names: holds in every state the parser reaches *)
Definition params_ok (st : dstate) : Prop :=
  forall n v, dict_get String.eqb n (s_params st) = Some v -> v_name v = n.

Lemma from_domain_ctx_uniform st t : params_ok st ->
  from_ctx (domain_ctx st) t -> term_uniform (stale_tags st) t.
Proof.
  intros P [(n & H)|[(n & v & -> & H)|(n & v & -> & H & V)]]; simpl in *.
  - destruct (dict_get _ _ _); inversion H; subst. exact I.
  - unfold stale_tags. rewrite (P _ _ H), H. reflexivity.
  - apply mk_var_Ok in V as (-> & _). simpl. unfold stale_tags. now rewrite H.
Qed.
Lemma uniform_ops p c f ops : ops_if c f = Some ops -> uniform p f -> Forall (uniform p) ops.
Proof.
  intros O. apply ops_if_raw in O. subst. destruct c; simpl; now rewrite fold_and_Forall.
Qed.
Lemma gd_uniform st s f : params_ok st -> gd (domain_ctx st) s = Ok f ->
  uniform (stale_tags st) f.
Proof.
  intros P. apply gd_P; intros.
  - apply mk_pred_Ok in H0. subst. simpl. eapply Forall_impl; [|exact H].
    intros. now apply from_domain_ctx_uniform.
  - apply mk_eq_Ok in H1. subst. simpl. split; now apply from_domain_ctx_uniform.
  - apply mk_numfun_Ok in H0. subst. simpl. eapply Forall_impl; [|exact H].
    intros. now apply from_domain_ctx_uniform.
  - exact I.
  - apply (mk_op_P _ (CFun k)); auto; [apply uniform_ops|]. simpl. intros. now rewrite fold_and_Forall.
  - apply (mk_op_P _ (CBin k)); auto; [apply uniform_ops|]. simpl. intros. now rewrite fold_and_Forall.
  - exact H.
  - exact H1.
Qed.

Lemma NoDup_names vs : NoDupE var_eqb vs ->
  (forall v w, In v vs -> In w vs -> v_name v = v_name w -> var_eqb v w = true) ->
  NoDup (map v_name vs).
Proof.
  induction 1 as [|v vs M D IH]; intros A; simpl; constructor.
  - intros H. apply in_map_iff in H as (w & E & Hw). rewrite memb_false in M.
    assert (X : var_eqb v w = true) by (apply A; simpl; auto). rewrite (M w Hw) in X.
    discriminate.
  - apply IH. intros u w Hu Hw. apply A; simpl; auto.
Qed.
Lemma typed_vars_ok s tl vs : typed_list_variable s = Ok tl -> mk_vars tl = Ok vs ->
  Forall2 (fun p v => v = mkVar (fst p) (snd p) /\ NoDup (snd p)) tl vs.
Proof.
  intros T M. assert (N : nodups tl).
  { apply typed_list_variable_iff in T as (groups & tail & W & -> & L & R).
    apply assigned_nodups. }
  apply mapR_Ok in M. revert N. clear T. induction M as [|[n gs] v l l' H M IH]; intros N; constructor.
  - apply mk_var_Ok in H as (-> & _). simpl in *.
    assert (D : NoDup gs) by (eapply N; left; eauto). rewrite dedup_string_id by auto. auto.
  - apply IH. intros a hs Ha. eapply N. right. eauto.
Qed.
Lemma binder_ok_parsed s tl vs : typed_list_variable s = Ok tl -> mk_vars tl = Ok vs ->
  binder_ok (dedup var_eqb vs).
Proof.
  intros T M. pose proof (typed_vars_ok _ _ _ T M) as F.
  apply typed_list_variable_iff in T as (groups & tail & W & E & L & R).
  assert (X : forall v, In v vs -> In (v_name v, v_tags v) tl /\ NoDup (v_tags v)).
  { clear - F. induction F as [|[n gs] v l l' [-> N] F IH]; simpl; [tauto|].
    intros v [<-|H]; simpl; auto. destruct (IH v H). auto. }
  assert (Sub : forall v, In v (dedup var_eqb vs) -> In v vs) by (intros; eapply dedup_In; eauto).
  split.
  - apply NoDup_names; [apply dedup_NoDupE, var_eqb_equiv|]. intros v w Hv Hw Q.
    apply Sub, X in Hv. apply Sub, X in Hw. destruct Hv as [Hv _], Hw as [Hw _].
    unfold var_eqb. rewrite Q, String.eqb_refl. simpl. apply set_eqb_string.
    rewrite Q in Hv. exact (R _ _ _ Hv Hw).
  - apply Forall_forall. intros v Hv. apply X. auto.
Qed.
Lemma binders_ok_ops c f ops : ops_if c f = Some ops -> binders_ok f -> Forall binders_ok ops.
Proof.
  intros O. apply ops_if_raw in O. subst. destruct c; simpl; now rewrite fold_and_Forall.
Qed.
Lemma gd_binders_ok st s f : gd (domain_ctx st) s = Ok f -> binders_ok f.
Proof.
  apply gd_P; intros.
  - apply mk_pred_Ok in H0. now subst.
  - apply mk_eq_Ok in H1. now subst.
  - apply mk_numfun_Ok in H0. now subst.
  - exact I.
  - apply (mk_op_P _ (CFun k)); auto; [apply binders_ok_ops|]. simpl. intros. now rewrite fold_and_Forall.
  - apply (mk_op_P _ (CBin k)); auto; [apply binders_ok_ops|]. simpl. intros. now rewrite fold_and_Forall.
  - exact H.
  - split; auto. eapply binder_ok_parsed; eauto.
Qed.

(** ** the head *)
Lemma head_types_keeps types hs : forall m m' ds n gs,
  head_types types m hs ds = Ok m' -> dict_get String.eqb n m = Some gs ->
  exists gs', dict_get String.eqb n m' = Some gs'.
Proof.
  induction hs as [|t hs IH]; intros m m' ds n gs H G; destruct ds as [|d ds]; simpl in H;
    try (inversion H; subst; eauto; fail).
  destruct t as [|v]; [discriminate|].
  destruct (v_tags v) as [|g0 gs0].
  - destruct (t_tags d).
    + eapply IH; eauto.
    + assert (X : exists g, dict_get String.eqb n (dict_set String.eqb (v_name v) (s :: l) m) = Some g).
      { rewrite dict_get_set_s. destruct (String.eqb n (v_name v)); eauto. }
      destruct X as (g & X). eapply IH; eauto.
  - apply bind_Ok in H as ([] & _ & H).
    assert (X : exists g, dict_get String.eqb n (dict_set String.eqb (v_name v) (g0 :: gs0) m) = Some g).
    { rewrite dict_get_set_s. destruct (String.eqb n (v_name v)); eauto. }
    destruct X as (g & X). eapply IH; eauto.
Qed.
Lemma head_types_none types hs : forall m m' ds v,
  head_types types m hs ds = Ok m' -> length ds = length hs -> In (TVar v) hs ->
  dict_get String.eqb (v_name v) m' = None -> v_tags v = [].
Proof.
  induction hs as [|t hs IH]; intros m m' ds v H L I N; [destruct I|].
  destruct ds as [|d ds]; [discriminate|]. simpl in H, L. destruct t as [|w]; [discriminate|].
  destruct I as [[= ->]|I].
  - destruct (v_tags v) as [|g0 gs0]; auto.
    apply bind_Ok in H as ([] & _ & H).
    eapply (head_types_keeps _ _ _ _ _ (v_name v)) in H as (gs' & X); [congruence|].
    rewrite dict_get_set_s, String.eqb_refl. reflexivity.
  - destruct (v_tags w) as [|g0 gs0].
    + eapply IH; eauto.
    + apply bind_Ok in H as ([] & _ & H). eapply IH; eauto.
Qed.
Lemma head_types_vars types hs : forall m m' ds,
  head_types types m hs ds = Ok m' -> length ds = length hs ->
  Forall (fun t => exists v, t = TVar v) hs.
Proof.
  induction hs as [|t hs IH]; intros m m' ds H L; constructor;
    (destruct ds as [|d ds]; [discriminate|]); simpl in H, L; (destruct t as [|v]; [discriminate|]).
  - eauto.
  - destruct (v_tags v).
    + eapply IH; eauto.
    + apply bind_Ok in H as ([] & _ & H). eapply IH; eauto.
Qed.

Lemma derived_scoped st st' h x d : params_ok st ->
  derived_def [h; x] st = (st', Ok d) ->
  (forall t, In t (dp_terms d) -> t_tags t = [] -> stale_tags st (t_name t) = []) ->
  scoped (head_env (dp_terms d)) (dp_cond d)
  /\ (exists cond, gd (domain_ctx st) x = Ok cond /\ strip (dp_cond d) = strip cond)
  /\ exists ts, atomic_formula_skeleton h = Ok (dp_name d, ts)
       /\ map strip_term (dp_terms d) = map strip_term ts.
Proof.
  intros P H S. unfold derived_def, bindM, ret, reads in H.
  destruct (atomic_formula_skeleton h) as [head|] eqn:A; [|discriminate].
  destruct (gd (domain_ctx st) x) as [cond|] eqn:G; [|discriminate].
  apply (f_equal snd) in H. rename H into H2. cbn [snd] in H2. unfold derived_callback in H2.
  destruct (dict_get String.eqb (fst head) (s_predicates st)) as [def|]; [|discriminate].
  apply bind_Ok in H2 as ([] & L & H). apply check_Ok, Nat.eqb_eq in L.
  apply bind_Ok in H as (m & M & H). apply bind_Ok in H as (p & U & H).
  apply bind_Ok in H as (cond' & C & H).
  simpl in U. apply bind_Ok in U as (ts' & T & U). apply mk_pred_Ok in U. subst p.
  inversion H; subst d. cbn [dp_terms dp_cond] in *. clear H.
  apply replace_terms_retag in T.
  pose proof (gd_uniform _ _ _ P G) as GU.
  pose proof (update_retag _ _ _ _ (built_nff _ (gd_built _ _ _ G)) GU (gd_binders_ok _ _ _ G) C)
    as ->.
  split.
  - apply (retag_scoped (stale_tags st)); auto. intros n gs E.
    unfold head_env in E. destruct (find _ ts') as [t|] eqn:F; [|discriminate].
    apply find_some in F as [F1 F2]. apply String.eqb_eq in F2. inversion E; subst gs. clear E.
    assert (V : exists v, In (TVar v) (snd head) /\ t = retag_term (lookup m) (TVar v)).
    { rewrite T in F1. apply in_map_iff in F1 as (u & <- & Hu).
      pose proof (head_types_vars _ _ _ _ _ M L) as V. rewrite Forall_forall in V.
      destruct (V u Hu) as (v & ->). eauto. }
    destruct V as (v & Hv & ->). cbn [retag_term] in *.
    destruct (lookup m (v_name v)) as [gs|] eqn:Lk; cbn [t_name t_tags v_name v_tags] in *.
    + left. subst n. exact Lk.
    + right. subst n. split; auto.
      assert (E : v_tags v = []).
      { eapply head_types_none; eauto. unfold lookup in Lk.
        destruct (dict_get _ _ m); [discriminate|auto]. }
      rewrite E. apply (S (TVar v)); auto.
  - split.
    + exists cond. split; auto. apply strip_retag.
    + exists (snd head). cbn [dp_name]. split; [now destruct head|].
      rewrite T, map_map. apply map_ext. intros [n o|v]; auto. cbn [retag_term].
      destruct (lookup m (v_name v)); reflexivity.
Qed.
