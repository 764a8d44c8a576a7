(** Facts: objects made anew from their attributes (C69). *)
From Coq Require Import String List Bool.
From Verif Require Import Py Names Reqs Logic Validation Core Built Spec_Core Spec_Copy
  Py_facts Logic_facts Ops_facts Built_facts Names_facts Validation_facts Order_facts CoreEq_facts Core_facts Derived_facts2.
Import ListNotations.
Open Scope list_scope.

Lemma copy_made_var v : made_var v -> copy_var v = Ok v.
Proof.
  intros (n & c & H). apply mk_var_Ok in H as (-> & L & C & T). unfold copy_var. cbn [v_name v_tags].
  apply mk_var_Ok. cbn [coll_items]. split.
  - f_equal. symmetry. apply dedup_id; [apply string_eqb_equiv|]. apply dedup_NoDupE, string_eqb_equiv.
  - split; auto. split; [exact Logic.I|]. now apply Forall_dedup_sub.
Qed.
Lemma copy_made_term t : made_term t -> copy_term t = Ok t.
Proof.
  destruct t as [n g|v]; cbn [made_term].
  - intros (n' & g' & H). pose proof H as E. apply mk_const_Ok in H as (H & _). inversion H; subst.
    cbn. destruct g'; cbn; exact E.
  - intros H. cbn. now rewrite (copy_made_var v H).
Qed.
Lemma mapR_id {A} (f : A -> res A) l : Forall (fun x => f x = Ok x) l -> mapR f l = Ok l.
Proof. induction 1; cbn; auto. now rewrite H, IHForall. Qed.
Lemma copy_made_terms ts : Forall made_term ts -> mapR copy_term ts = Ok ts.
Proof. intros F. apply mapR_id. eapply Forall_impl; [|exact F]. apply copy_made_term. Qed.
Lemma copy_made_vars vs : Forall made_var vs -> mapR copy_var vs = Ok vs.
Proof. intros F. apply mapR_id. eapply Forall_impl; [|exact F]. apply copy_made_var. Qed.

(** ** the operands of a node are kept when they are passed again *)
Lemma leaves_leaf c f : Forall (fun g => ops_if c g = None) (leaves c f).
Proof.
  induction f using form_ind'; cbn; auto; destruct c; cbn; auto.
  - destruct (bfun_eqb k0 k) eqn:K.
    + now apply Forall_flat_map.
    + constructor; auto. cbn. now rewrite K.
  - destruct (bop_eqb k0 k) eqn:K.
    + now apply Forall_flat_map.
    + constructor; auto. cbn. now rewrite K.
Qed.
Lemma leaf_leaves c f : ops_if c f = None -> leaves c f = [f].
Proof.
  destruct f; cbn; auto; destruct c; cbn; auto.
  - destruct (bfun_eqb k0 k); [discriminate|auto].
  - destruct (bop_eqb k0 k); [discriminate|auto].
Qed.
Lemma leaves_again c l : Forall (fun g => ops_if c g = None) l -> flat_map (leaves c) l = l.
Proof. induction 1; cbn; auto. now rewrite IHForall, leaf_leaves. Qed.

Lemma mk_op_again (Q : form -> Prop) c ops :
  (forall f ops, ops_if c f = Some ops -> Q f -> Forall Q ops) ->
  (forall l, mk_op c l = raw_node c l -> Forall Q l -> Q (raw_node c l)) ->
  Forall Q ops -> Q (mk_op c ops).
Proof.
  intros Hs Hr F. unfold mk_op at 1. destruct (metaclass c) as [idem|] eqn:M.
  2:{ apply Hr; auto. unfold mk_op. now rewrite M. }
  pose proof (simplify_P Q c idem ops Hs F) as F'.
  rewrite simplify_spec in *. remember (if idem then dedup form_eqb ops else ops) as old.
  destruct old as [|x [|y l]].
  - apply Hr; auto. unfold mk_op. rewrite M, simplify_spec. destruct idem; reflexivity.
  - destruct idem; [now inversion F'|]. apply Hr; auto. unfold mk_op. now rewrite M, simplify_spec.
  - remember (dedup form_eqb (flat_map (leaves c) (x :: y :: l))) as out.
    assert (N : Forall (fun g => ops_if c g = None) out).
    { subst out. apply Forall_dedup_sub, Forall_flat_map, Forall_forall. intros. apply leaves_leaf. }
    assert (D : NoDupE form_eqb out) by (subst out; apply dedup_NoDupE, form_eqb_equiv).
    assert (A : forall a b m, out = a :: b :: m -> mk_op c out = raw_node c out).
    { intros a b m E. unfold mk_op. rewrite M, simplify_spec.
      replace (if idem then dedup form_eqb out else out) with out
        by (destruct idem; auto; now rewrite (dedup_id _ form_eqb_equiv)).
      pose proof (leaves_again c out N) as L. pose proof (dedup_id _ form_eqb_equiv _ D) as I.
      rewrite E in *. now rewrite L, I. }
    destruct out as [|a [|b m]].
    + apply Hr; auto. unfold mk_op. rewrite M, simplify_spec. destruct idem; reflexivity.
    + destruct idem; [now inversion F'|]. apply Hr; auto. unfold mk_op. now rewrite M, simplify_spec.
    + apply Hr; eauto.
Qed.

Fixpoint hc (f : form) : Prop :=
  copy f = Ok f /\
  match f with
  | FBinFun _ ops | FBin _ ops => fold_right (fun g p => hc g /\ p) True ops
  | FNot g => hc g
  | FQuant _ _ c => hc c
  | FWhen c e => hc c /\ hc e
  | FForall _ e => hc e
  | _ => True
  end.
Lemma hc_copy f : hc f -> copy f = Ok f.
Proof. destruct f; cbn [hc]; tauto. Qed.
Lemma hc_ops c f ops : ops_if c f = Some ops -> hc f -> Forall hc ops.
Proof.
  intros O. apply ops_if_raw in O. subst. destruct c; cbn [hc raw_node]; rewrite fold_and_Forall; tauto.
Qed.
Lemma hc_mk_op c ops : Forall hc ops -> hc (mk_op c ops).
Proof.
  apply mk_op_again; [apply hc_ops|]. intros l A F.
  assert (C : mapR copy l = Ok l) by (apply mapR_id; eapply Forall_impl; [|exact F]; apply hc_copy).
  destruct c; cbn [raw_node hc copy] in *; rewrite fold_and_Forall; split; auto; rewrite C; cbn [bind];
    unfold mk_bin, mk_binfun; now rewrite A.
Qed.

Section MadeInd.
  Variable P : form -> Prop.
  Hypothesis HPred : forall n ts f, Forall made_term ts -> mk_pred n ts = Ok f -> P f.
  Hypothesis HEq : forall l r f, made_term l -> made_term r -> mk_eq l r = Ok f -> P f.
  Hypothesis HNumFun : forall n ts f, Forall made_term ts -> mk_numfun n ts = Ok f -> P f.
  Hypothesis HNumVal : forall v, P (FNumVal v).
  Hypothesis HBinFun : forall k ops, Forall P ops -> P (mk_binfun k ops).
  Hypothesis HBin : forall k ops, Forall P ops -> P (mk_bin k ops).
  Hypothesis HNot : forall f, P f -> P (mk_not f).
  Hypothesis HQuant : forall q vs c, Forall made_var vs -> P c -> P (mk_quant q vs c).
  Hypothesis HWhen : forall c e, P c -> P e -> P (mk_when c e).
  Hypothesis HForall : forall vs e, Forall made_var vs -> P e -> P (mk_forall vs e).
  Fixpoint made_ind' (f : form) (b : made f) {struct b} : P f :=
    let go := fix go (l : list form) (F : Forall made l) : Forall P l :=
      match F with
      | Forall_nil _ => Forall_nil P
      | Forall_cons x bx bl => Forall_cons x (made_ind' x bx) (go _ bl)
      end in
    match b with
    | Y_pred n ts f t h => HPred n ts f t h
    | Y_eq l r f t t' h => HEq l r f t t' h
    | Y_numfun n ts f t h => HNumFun n ts f t h
    | Y_numval v => HNumVal v
    | Y_binfun k ops h => HBinFun k ops (go ops h)
    | Y_bin k ops h => HBin k ops (go ops h)
    | Y_not f h => HNot f (made_ind' f h)
    | Y_quant q vs c t h => HQuant q vs c t (made_ind' c h)
    | Y_when c e h h' => HWhen c e (made_ind' c h) (made_ind' e h')
    | Y_forall vs e t h => HForall vs e t (made_ind' e h)
    end.
End MadeInd.

Lemma made_hc f : made f -> hc f.
Proof.
  assert (DV : forall vs, Forall made_var vs -> mapR copy_var (dedup var_eqb vs) = Ok (dedup var_eqb vs)).
  { intros vs F. apply copy_made_vars. now apply Forall_dedup_sub. }
  assert (DD : forall vs, dedup var_eqb (dedup var_eqb vs) = dedup var_eqb vs).
  { intros vs. apply dedup_id; [apply var_eqb_equiv|]. apply dedup_NoDupE, var_eqb_equiv. }
  induction 1 using made_ind'.
  - pose proof (mk_pred_Ok _ _ _ H0). subst. cbn [hc copy]. rewrite copy_made_terms by auto. auto.
  - pose proof (mk_eq_Ok _ _ _ H1). subst. cbn [hc copy]. rewrite !copy_made_term by auto. auto.
  - pose proof (mk_numfun_Ok _ _ _ H0). subst. cbn [hc copy]. rewrite copy_made_terms by auto. auto.
  - cbn. auto.
  - now apply hc_mk_op.
  - now apply hc_mk_op.
  - unfold mk_not. cbn [hc copy]. now rewrite (hc_copy _ IHmade).
  - unfold mk_quant. cbn [hc copy]. rewrite DV by auto. cbn [bind]. rewrite (hc_copy _ IHmade). cbn [bind].
    unfold mk_quant. now rewrite DD.
  - unfold mk_when. cbn [hc copy]. cbn. now rewrite (hc_copy _ IHmade), (hc_copy _ IHmade0).
  - unfold mk_forall. cbn [hc copy]. rewrite DV by auto. cbn [bind]. rewrite (hc_copy _ IHmade). cbn [bind].
    unfold mk_forall. now rewrite DD.
Qed.
Lemma copy_made f : made f -> copy f = Ok f.
Proof. intros H. apply hc_copy. now apply made_hc. Qed.

(** ** the other classes *)
Lemma copy_made_opt o : made_opt o -> copy_opt o = Ok o.
Proof. destruct o as [f|]; cbn; auto. intros H. now rewrite (copy_made f (H f eq_refl)). Qed.
Lemma copy_made_action a : made_action a -> copy_action a = Ok a.
Proof.
  intros (n & ps & p & e & M & F & P & E). pose proof M as M'. unfold mk_action in M.
  apply bind_Ok in M as (n' & N & M). apply parse_name_Ok' in N as [-> _]. inversion M; subst; clear M.
  unfold copy_action. cbn [a_params a_pre a_eff a_name].
  now rewrite copy_made_terms, copy_made_opt, copy_made_opt by auto.
Qed.
Lemma copy_made_derived d : made_derived d -> copy_derived d = Ok d.
Proof. intros [A B]. unfold copy_derived. rewrite (copy_made _ A), (copy_made _ B). now destruct d. Qed.
Lemma copy_made_metric m : made_metric m -> copy_metric m = Ok m.
Proof.
  intros (e & o & M & F). pose proof M as M'. unfold mk_metric in M. apply bind_Ok in M as ([] & N & M).
  inversion M; subst; clear M. unfold copy_metric. cbn [me_expr me_opt]. now rewrite (copy_made _ F).
Qed.
Lemma copy_made_const c : made_const c -> copy_const c = Ok c.
Proof. intros H. unfold copy_const. rewrite (copy_made_term _ H). now destruct c. Qed.
Lemma copy_made_predicate p : made (FPred (fst p) (snd p)) -> copy_predicate p = Ok p.
Proof. destruct p as [n ts]. cbn [fst snd]. intros H. unfold copy_predicate. cbn [fst snd]. now rewrite (copy_made _ H). Qed.
Lemma copy_made_function kv : made (FNumFun (fst (fst kv)) (snd (fst kv))) -> copy_function kv = Ok kv.
Proof. destruct kv as [[n ts] v]. cbn [fst snd]. intros H. unfold copy_function. cbn [fst snd]. now rewrite (copy_made _ H). Qed.

Lemma copied {A} (P : A -> Prop) (f : A -> res A) eqb l : (forall x, P x -> f x = Ok x) ->
  Forall P l -> mapR f (dedup eqb l) = Ok (dedup eqb l).
Proof. intros H F. apply mapR_id. apply Forall_dedup_sub. eapply Forall_impl; [|exact F]. exact H. Qed.

Lemma to_type_value_again a b : to_type_value a = Ok b -> to_type_value b = Ok b.
Proof.
  destruct a as [[|c s]|]; cbn [to_type_value]; intros H; try (inversion H; subst; reflexivity).
  apply bind_Ok in H as (n & N & H). inversion H; subst; clear H. pose proof N as N'.
  apply parse_type_Ok' in N' as [-> _]. cbn [to_type_value]. now rewrite N.
Qed.
Lemma mk_types_again t rs t' : mk_types t rs false = Ok t' -> mk_types (Some t') rs false = Ok t'.
Proof.
  intros H. pose proof (mk_types_keys _ _ _ _ H) as N.
  unfold mk_types in *. apply bind_Ok in H as (x & H & K). apply bind_Ok in K as ([] & C & K).
  inversion K; subst; clear K.
  assert (T : to_types t' = Ok t'); [|now rewrite T; cbn [bind]; rewrite C].
  unfold to_types in *. apply bind_Ok in H as (l & M & H). inversion H as [E]. rewrite E. clear H.
  apply mapR_Ok in M. rewrite mapR_id.
  - cbn [bind]. now rewrite (dict_of_list_id _ string_eqb_equiv).
  - rewrite <- E. apply dict_of_list_Forall. clear - M. induction M as [|a b l1 l2 E M IH]; constructor; auto.
    apply bind_Ok in E as (k & A & E). apply bind_Ok in E as (v & B & E). inversion E; subst. cbn [fst snd].
    rewrite (to_type_value_again _ _ B). pose proof A as A'. apply parse_type_Ok' in A' as [-> _]. now rewrite A.
Qed.

Lemma copy_made_domain d : made_domain d -> copy_domain d = Ok d.
Proof.
  intros (n & rs & ty & cs & ps & dps & fs & acts & M & F1 & F2 & F3 & F4 & F5).
  apply mk_domain_inv in M as (N & PN & R & T & TC & C & P & DP & FS & A & K).
  unfold copy_domain.
  rewrite C, P, DP, FS, A, (copied _ _ _ _ copy_made_const F1), (copied _ _ _ _ copy_made_predicate F2),
    (copied _ _ _ _ copy_made_derived F3), (copied _ _ _ _ copy_made_action F5). cbn [bind].
  rewrite (mapR_id copy_function fs) by (eapply Forall_impl; [|exact F4]; intros; now apply copy_made_function).
  cbn [bind]. unfold mk_domain. rewrite N, PN, R. cbn [bind].
  rewrite (dedup_id _ req_eqb_equiv) by apply dedup_NoDupE, req_eqb_equiv.
  rewrite (mk_types_again _ _ _ T). cbn [bind]. rewrite TC. cbn [bind].
  rewrite (dedup_id _ const_eqb_equiv) by apply dedup_NoDupE, const_eqb_equiv.
  rewrite (dedup_id _ atom_eqb_equiv) by apply dedup_NoDupE, atom_eqb_equiv.
  rewrite (dedup_id _ derived_eqb_equiv) by apply dedup_NoDupE, derived_eqb_equiv.
  rewrite (dedup_id _ action_eqb_equiv) by apply dedup_NoDupE, action_eqb_equiv.
  destruct d as [dn dr dt dc dp dd df da]; cbn [d_name d_reqs d_types d_constants d_predicates d_derived d_functions d_actions] in *.
  subst. match goal with |- bind ?x _ = _ => assert (E : x = Ok tt) by exact K; rewrite E end. reflexivity.
Qed.

(** ** problems *)
Definition parts_made (p : problem) : Prop :=
  parse_name (p_name p) = Ok (p_name p) /\
  (forall d, p_domain p = Some d -> made_domain d) /\ parse_name (p_domain_name p) = Ok (p_domain_name p) /\
  (forall rs, p_domain p = None -> p_reqs p = Some rs -> NoDupE req_eqb rs) /\
  Forall made_const (p_objects p) /\ NoDupE const_eqb (p_objects p) /\
  Forall made (p_init p) /\ NoDupE form_eqb (p_init p) /\ forallb is_literal (p_init p) = true /\
  made (p_goal p) /\ (forall m, p_metric p = Some m -> made_metric m) /\
  (forall d, p_domain p = Some d -> exists types, mk_types (Some (d_types d)) (d_reqs d) true = Ok types /\
     check_terms types (d_reqs d) (map const_term (p_objects p)) = Ok tt /\
     iterR (check_form types (d_reqs d)) (p_init p) = Ok tt /\
     check_form types (d_reqs d) (p_goal p) = Ok tt).

Lemma made_domain_name d : made_domain d -> parse_name (d_name d) = Ok (d_name d).
Proof.
  intros (n & rs & ty & cs & ps & dps & fs & acts & M & _).
  apply mk_domain_inv in M as (-> & PN & _). exact PN.
Qed.
Lemma made_domain_built d : made_domain d -> domain_built d.
Proof. intros (n & rs & ty & cs & ps & dps & fs & acts & M & _). unfold domain_built. eauto 10. Qed.
Lemma made_domain_reqs d : made_domain d -> NoDupE req_eqb (d_reqs d).
Proof.
  intros (n & rs & ty & cs & ps & dps & fs & acts & M & _).
  apply mk_domain_inv in M as (_ & _ & -> & _). apply dedup_NoDupE, req_eqb_equiv.
Qed.
Lemma check_parts p d : problem_check p d = Ok tt -> exists types, mk_types (Some (d_types d)) (d_reqs d) true = Ok types /\
     check_terms types (d_reqs d) (map const_term (p_objects p)) = Ok tt /\
     iterR (check_form types (d_reqs d)) (p_init p) = Ok tt /\
     check_form types (d_reqs d) (p_goal p) = Ok tt.
Proof.
  unfold problem_check. intros H. apply bind_Ok in H as ([] & _ & H). apply bind_Ok in H as ([] & _ & H).
  apply bind_Ok in H as (ty & T & H). apply bind_Ok in H as ([] & A & H). apply bind_Ok in H as ([] & B & H). eauto.
Qed.
Lemma made_problem_parts p : made_problem p -> parts_made p.
Proof.
  induction 1 as [n d dn rs objs init goal m p D O I G Me M|p d p' H IH D S].
  - unfold mk_problem in M. apply bind_Ok in M as (n' & N & M). pose proof N as N'. apply parse_name_Ok' in N' as [-> _].
    apply bind_Ok in M as ((d', dn') & H1 & M). apply bind_Ok in M as (rs' & H2 & M).
    apply bind_Ok in M as ([] & L & M). apply bind_Ok in M as ([] & C & M). cbn [fst snd] in *. inversion M; subst p; clear M.
    unfold parts_made. cbn [p_name p_domain p_domain_name p_reqs p_objects p_init p_goal p_metric].
    assert (D' : (forall x, d' = Some x -> made_domain x) /\ parse_name dn' = Ok dn' /\ (d' = None -> d = None)).
    { unfold parse_domain_and_name in H1. destruct d as [d|], dn as [s|]; try discriminate.
      - apply bind_Ok in H1 as ([] & _ & H1). apply bind_Ok in H1 as (s' & S & H1). inversion H1; subst.
        split; [intros x [= <-]; auto|]. split; [|discriminate]. pose proof S as S'. apply parse_name_Ok' in S' as [-> _]. exact S.
      - inversion H1; subst. split; [intros x [= <-]; auto|]. split; [|discriminate]. apply made_domain_name. auto.
      - apply bind_Ok in H1 as (s' & S & H1). inversion H1; subst. split; [discriminate|]. split; auto.
        pose proof S as S'. apply parse_name_Ok' in S' as [-> _]. exact S. }
    destruct D' as (D1 & D2 & D3). split; auto. split; auto. split; auto. split.
    { intros x E ->. rewrite (D3 E) in H2. unfold parse_requirements in H2. destruct rs; [|discriminate].
      inversion H2; subst. apply dedup_NoDupE, req_eqb_equiv. }
    split; [now apply Forall_dedup_sub|]. split; [apply dedup_NoDupE, const_eqb_equiv|].
    split; [now apply Forall_dedup_sub|]. split; [apply dedup_NoDupE, form_eqb_equiv|].
    split. { unfold check in L. destruct (forallb is_literal _); [auto|discriminate]. }
    split. { destruct goal as [g|]; [now apply G|]. apply (Y_bin OAnd []). constructor. }
    split; auto. intros x ->. unfold problem_check_consistency in C. cbn [p_domain] in C. apply check_parts in C. exact C.
  - destruct IH as (A1 & A2 & A3 & A4 & A5 & A6 & A7 & A8 & A9 & A10 & A11 & A12).
    unfold set_domain in S. inversion S; subst p'; clear S.
    unfold parts_made. cbn [p_name p_domain p_domain_name p_reqs p_objects p_init p_goal p_metric].
    split; auto. split; [intros x [= <-]; auto|]. split; [now apply made_domain_name|]. split; [discriminate|].
    repeat (split; [assumption|]). intros x [= <-].
    match goal with E : problem_check_consistency _ = Ok tt |- _ => apply check_parts in E; exact E end.
Qed.

Lemma copy_made_problem p : made_problem p ->
  copy_problem p = Ok (mkProblem (p_name p) (p_domain p) (get_domain_name p) (Some (get_requirements p))
    (p_objects p) (p_init p) (p_goal p) (p_metric p)).
Proof.
  intros H. apply made_problem_parts in H as (A1 & A2 & A3 & A4 & A5 & A6 & A7 & A8 & A9 & A10 & A11 & A12).
  unfold copy_problem.
  rewrite (mapR_id copy_const (p_objects p)) by (eapply Forall_impl; [|exact A5]; apply copy_made_const).
  rewrite (mapR_id copy (p_init p)) by (eapply Forall_impl; [|exact A7]; apply copy_made).
  rewrite (copy_made _ A10). cbn [bind].
  assert (E : match p_metric p with Some m => let* m' := copy_metric m in Ok (Some m') | None => Ok None end = Ok (p_metric p)).
  { destruct (p_metric p) as [m|]; auto. now rewrite (copy_made_metric m (A11 m eq_refl)). }
  rewrite E. cbn [bind]. unfold get_domain, get_domain_name, get_requirements. destruct (p_domain p) as [d|].
  - rewrite (copy_made_domain d (A2 d eq_refl)). cbn [bind]. unfold mk_problem. rewrite A1. cbn [bind parse_domain_and_name].
    rewrite String.eqb_refl. cbn [check bind]. rewrite (made_domain_name d (A2 d eq_refl)). cbn [bind parse_requirements fst snd].
    rewrite (dedup_id _ req_eqb_equiv _ (made_domain_reqs d (A2 d eq_refl))).
    rewrite (eqv_refl _ (set_eqb_equiv _ req_eqb_equiv)). cbn [check bind].
    rewrite (dedup_id _ form_eqb_equiv _ A8), (dedup_id _ const_eqb_equiv _ A6), A9. cbn [check bind].
    unfold problem_check_consistency. cbn [p_domain]. unfold problem_check, get_domain_name.
    cbn [p_name p_domain p_domain_name p_reqs p_objects p_init p_goal p_metric].
    rewrite String.eqb_refl. cbn [check bind].
    assert (SB : subset req_eqb (d_reqs d) (d_reqs d) = true).
    { apply (subset_spec _ req_eqb_equiv). auto. }
    rewrite SB. cbn [check bind]. destruct (A12 d eq_refl) as (ty & T1 & T2 & T3 & T4).
    rewrite T1. cbn [bind]. rewrite T2. cbn [bind]. rewrite T3. cbn [bind]. rewrite T4. reflexivity.
  - unfold mk_problem. rewrite A1. cbn [bind parse_domain_and_name]. rewrite A3. cbn [bind parse_requirements fst snd].
    rewrite (dedup_id _ form_eqb_equiv _ A8), (dedup_id _ const_eqb_equiv _ A6), A9. cbn [check bind problem_check_consistency p_domain].
    do 3 f_equal. destruct (p_reqs p) as [rs|]; [|reflexivity]. now rewrite (dedup_id _ req_eqb_equiv _ (A4 rs eq_refl eq_refl)).
Qed.
