(** What the parser does depends on the requirements only through the flags it looks at. *)
From Coq Require Import String List Bool.
From Verif Require Import Py Names Reqs Logic Validation Core Lexer TypedList UpdateTags Parser.
From Verif Require Import Spec Spec_Core Spec_Reqs Spec_Parse Spec_Features Spec_Grow Spec_Ignored.
From Verif Require Import Py_facts Names_facts Order_facts Logic_facts Validation_facts Core_facts CoreEq_facts GD_facts Domain_facts Feature_facts Grow_facts.
Import ListNotations.
Open Scope string_scope.
Open Scope list_scope.

Definition agree (e e' : list req) : Prop := forall r, ~ unused_flag r -> has r e' = has r e.
Ltac used := let H := fresh in intros H; unfold unused_flag in H; simpl in H; intuition discriminate.

Lemma agree_of e e' : same_used_flags e e' -> agree e e'.
Proof.
  intros S r U. specialize (S r U). destruct (has r e') eqn:E', (has r e) eqn:E; auto.
  - apply has_In in E'. apply S in E'. apply has_In in E'. congruence.
  - apply has_In in E. apply S in E. apply has_In in E. congruence.
Qed.
Lemma implied_used q r : In r (implied_by q) -> ~ unused_flag q.
Proof. destruct q; simpl; intros H; try contradiction; used. Qed.
Lemma extend_same rs rs' : same_used_flags rs rs' -> same_used_flags (extend_reqs rs) (extend_reqs rs').
Proof.
  intros S r U. rewrite !extend_exact. split; (intros [H|(q & H & J)]; [left; apply (S r U); exact H|right; exists q; split; auto;
    apply (S q (implied_used _ _ J)); exact H]).
Qed.
Lemma dedup_same rs rs' : same_used_flags rs rs' -> same_used_flags (dedup req_eqb rs) (dedup req_eqb rs').
Proof.
  intros S r U. rewrite <- !has_In. unfold has. rewrite !(memb_dedup _ req_eqb_equiv). change (has r rs = true <-> has r rs' = true).
  rewrite !has_In. exact (S r U).
Qed.

(** * Conditions and effects *)
Section Same.
  Variables (c : gctx) (e : list req).
  Hypothesis G : agree (g_ext c) e.
  Notation c' := (with_ext e c).

  Lemma has_agree r : ~ unused_flag r -> has r (g_ext c') = has r (g_ext c).
  Proof. apply G. Qed.
  Lemma any_agree l : Forall (fun r => ~ unused_flag r) l -> any_req l (g_ext c') = any_req l (g_ext c).
  Proof.
    unfold any_req. induction 1 as [|r l U F IH]; [reflexivity|]. cbn [existsb]. rewrite IH.
    f_equal. exact (has_agree r U).
  Qed.
  Lemma atomic_eq_agree args : atomic_eq c' args = atomic_eq c args.
  Proof.
    unfold atomic_eq. rewrite (has_agree EQUALITY) by used. reflexivity.
  Qed.
  Lemma gd_agree x : gd c' x = gd c x.
  Proof.
    induction x as [t|l IH] using sexp_ind'; [reflexivity|].
    destruct l as [|[[]|] args]; try reflexivity; inversion IH as [|? ? _ IHa]; subst; clear IH; cbn [gd].
    - assert (Mp : mapR (gd c') args = mapR (gd c) args).
      { apply mapR_ext. intros y Hy. rewrite Forall_forall in IHa. auto. }
      rewrite Mp. rewrite (any_agree [DIS_PRECONDITION; ADL]) by (repeat constructor; used).
      destruct (String.eqb s "or"); [reflexivity|].
      destruct (String.eqb s "not").
      { destruct args as [|x [|]]; try reflexivity. inversion IHa as [|? ? Hx _]; subst. now rewrite Hx. }
      destruct (String.eqb s "and"); [reflexivity|].
      destruct (String.eqb s "imply").
      { destruct args as [|x [|y [|]]]; try reflexivity. inversion IHa as [|? ? Hx I2]; subst. inversion I2 as [|? ? Hy _]; subst.
        now rewrite Hx, Hy. }
      destruct (String.eqb s "exists"); cbn [orb].
      { destruct args as [|[|vs] [|x [|]]]; try reflexivity. inversion IHa as [|? ? _ I2]; subst. inversion I2 as [|? ? Hx _]; subst.
        rewrite Hx. rewrite (any_agree [EXISTENTIAL_PRECONDITION; QUANTIFIED_PRECONDITION; ADL]) by (repeat constructor; used). reflexivity. }
      destruct (String.eqb s "forall").
      { destruct args as [|[|vs] [|x [|]]]; try reflexivity. inversion IHa as [|? ? _ I2]; subst. inversion I2 as [|? ? Hx _]; subst.
        rewrite Hx. rewrite (any_agree [UNIVERSAL_PRECONDITION; QUANTIFIED_PRECONDITION; ADL]) by (repeat constructor; used). reflexivity. }
      symmetry. apply atomic_pred_ext.
    - rewrite atomic_eq_agree. destruct (String.eqb s "=" && starts_term args); [reflexivity|].
      match goal with |- context [match ?m with Some _ => _ | None => _ end] => destruct m end; [|reflexivity]. destruct args as [|x [|y [|]]]; try reflexivity.
      rewrite <- !(f_exp_ext c). reflexivity.
  Qed.
  Lemma aft_agree x : atomic_formula_term c' x = atomic_formula_term c x.
  Proof.
    unfold atomic_formula_term. destruct x as [|[|[[]|] args]]; try reflexivity.
    destruct (String.eqb s "="); [|reflexivity]. apply atomic_eq_agree.
  Qed.
  Lemma p_effect_agree x : p_effect c' x = p_effect c x.
  Proof.
    unfold p_effect. rewrite aft_agree. destruct x as [|[|[[]|] args]]; try reflexivity.
    destruct (String.eqb s "not").
    { destruct args as [|x [|]]; try reflexivity. now rewrite aft_agree. }
    destruct (assign_op s); [|reflexivity]. destruct args as [|h [|x [|]]]; try reflexivity.
    rewrite <- (f_head_ext c), <- (f_exp_ext c). reflexivity.
  Qed.
  Lemma cond_effect_agree x : cond_effect c' x = cond_effect c x.
  Proof.
    unfold cond_effect. pose proof p_effect_agree as PE.
    destruct x as [|[|[[]|] args]]; try apply PE.
    destruct (String.eqb s "and"); [|apply PE].
    assert (Mp : mapR (p_effect c') args = mapR (p_effect c) args) by (apply mapR_ext; intros; apply PE).
    now rewrite Mp.
  Qed.
  Lemma effect_agree x : forall t, effect c' t x = effect c t x.
  Proof.
    induction x as [t|l IH] using sexp_ind'; intros top; [exact (p_effect_agree _)|].
    destruct l as [|[[]|] args]; try exact (p_effect_agree _); inversion IH as [|? ? _ IHa]; subst; clear IH; cbn [effect].
    rewrite p_effect_agree.
    assert (Mp : forall t, mapR (effect c' t) args = mapR (effect c t) args).
    { intros t. apply mapR_ext. intros y Hy. rewrite Forall_forall in IHa. auto. }
    rewrite !Mp. rewrite (has_agree NON_DETERMINISTIC) by used.
    destruct (top && String.eqb s "and"); [reflexivity|].
    destruct (String.eqb s "forall").
    { destruct args as [|[|vs] [|x [|]]]; try reflexivity. inversion IHa as [|? ? _ I2]; subst. inversion I2 as [|? ? Hx _]; subst.
      now rewrite Hx. }
    destruct (String.eqb s "when").
    { destruct args as [|x [|y [|]]]; try reflexivity. now rewrite gd_agree, cond_effect_agree. }
    destruct (String.eqb s "oneof"); reflexivity.
  Qed.
End Same.

(** * The steps of the transformer *)
Definition alike {A} (e : list req) (m : M A) (st : dstate) : Prop :=
  agree (s_ext st) e -> s_ext (fst (m st)) = s_ext st /\ m (set_ext e st) = (set_ext e (fst (m st)), snd (m st)).

Lemma alike_ret {A} e (r : res A) st : alike e (ret r) st.
Proof. intros _. split; reflexivity. Qed.
Lemma alike_bind {A B} e (m : M A) (k : A -> M B) st :
  alike e m st -> (forall st1 a, alike e (k a) st1) -> alike e (bindM m k) st.
Proof.
  intros Hm Hk L. destruct (Hm L) as [E1 R1]. unfold bindM. rewrite R1. destruct (m st) as [st1 [a|x]]; cbn [fst snd] in *.
  - rewrite <- E1 in L. destruct (Hk st1 a L) as [E2 R2]. split; [congruence|]. exact R2.
  - split; [exact E1|reflexivity].
Qed.
Lemma alike_reads {A} e (f : dstate -> res A) st :
  (agree (s_ext st) e -> f (set_ext e st) = f st) -> alike e (reads f) st.
Proof. intros Hf L. split; [reflexivity|]. unfold reads. now rewrite (Hf L). Qed.
Lemma alike_modify e f st : f (set_ext e st) = set_ext e (f st) -> s_ext (f st) = s_ext st -> alike e (modify f) st.
Proof. intros E X _. split; [exact X|]. unfold modify. cbn [fst snd]. now rewrite E. Qed.
Lemma alike_optM {A} e (f : list sexp -> M A) o st : (forall l, alike e (f l) st) -> alike e (optM f o) st.
Proof.
  intros H. destruct o; cbn [optM]; [|apply alike_ret]. apply alike_bind; auto. intros. apply alike_ret.
Qed.
Lemma alike_mapM {A B} e (f : A -> M B) l : (forall x st, alike e (f x) st) -> forall st, alike e (mapM f l) st.
Proof.
  intros H. induction l as [|x l IH]; intros st; cbn [mapM]; [apply alike_ret|].
  apply alike_bind; auto. intros. apply alike_bind; auto. intros. apply alike_ret.
Qed.

Lemma gd_st e st x : agree (s_ext st) e -> gd (domain_ctx (set_ext e st)) x = gd (domain_ctx st) x.
Proof. intros L. exact (gd_agree (domain_ctx st) e L x). Qed.
Lemma effect_st e st t x : agree (s_ext st) e -> effect (domain_ctx (set_ext e st)) t x = effect (domain_ctx st) t x.
Proof. intros L. exact (effect_agree (domain_ctx st) e L x t). Qed.
Lemma action_body_alike e st l : agree (s_ext st) e -> action_body l (set_ext e st) = action_body l st.
Proof.
  intros L. unfold action_body.
  assert (P : forall x, emptyor_pregd (domain_ctx (set_ext e st)) x = emptyor_pregd (domain_ctx st) x)
    by (intros [|[|]]; cbn [emptyor_pregd]; auto using gd_st).
  assert (F : forall x, emptyor_effect (domain_ctx (set_ext e st)) x = emptyor_effect (domain_ctx st) x)
    by (intros [|[|]]; cbn [emptyor_effect]; auto using effect_st).
  destruct l as [|k1 [|x [|k2 [|y [|]]]]]; try reflexivity; rewrite ?P, ?F; reflexivity.
Qed.
Lemma structure_alike e x st : alike e (structure_def x) st.
Proof.
  unfold structure_def. destruct x as [|[|k body]]; try apply alike_ret.
  destruct (is_kw ":action" k).
  - apply alike_bind; [|intros; apply alike_ret]. unfold action_def.
    destruct body as [|[[]|] [|k' [|[|ps] body]]]; try apply alike_ret.
    destruct (is_kw ":parameters" k'); [|apply alike_ret].
    apply alike_bind.
    + unfold action_parameters. apply alike_bind; [apply alike_ret|]. intros. apply alike_bind; [apply alike_ret|].
      intros. apply alike_bind; [now apply alike_modify|]. intros. apply alike_ret.
    + intros. apply alike_bind; [|intros; apply alike_ret]. apply alike_reads. intros L.
      now apply action_body_alike.
  - destruct (is_kw ":derived" k); [|apply alike_ret].
    apply alike_bind; [|intros; apply alike_ret]. unfold derived_def.
    destruct body as [|h [|x [|]]]; try apply alike_ret.
    apply alike_bind; [apply alike_ret|]. intros. apply alike_bind.
    + apply alike_reads. intros L. now apply gd_st.
    + intros. apply alike_reads. reflexivity.
Qed.
Lemma types_alike e l st : alike e (types_section l) st.
Proof.
  unfold types_section. apply alike_bind; [apply alike_ret|]. intros.
  apply alike_bind; [|intros; apply alike_bind].
  - apply alike_reads. intros L. cbn [set_ext s_ext] in *. rewrite (L TYPING) by used. reflexivity.
  - apply alike_reads. reflexivity.
  - intros. apply alike_bind; [now apply alike_modify|]. intros. apply alike_ret.
Qed.
Lemma middle_alike e l1 st : alike e (middle l1) st.
Proof.
  unfold middle. destruct (section ":types" l1) as [o2 l2].
  apply alike_bind; [apply alike_optM; intros; apply types_alike|]. intros.
  destruct (section ":constants" l2) as [o3 l3].
  apply alike_bind.
  { apply alike_optM. intros. unfold constants_section. apply alike_bind; [apply alike_ret|]. intros.
    apply alike_bind; [apply alike_ret|]. intros. apply alike_bind; [now apply alike_modify|].
    intros. apply alike_ret. }
  intros. destruct (section ":predicates" l3) as [o4 l4].
  apply alike_bind.
  { apply alike_optM. intros. unfold predicates_section. apply alike_bind; [apply alike_ret|]. intros.
    apply alike_bind; [now apply alike_modify|]. intros. apply alike_ret. }
  intros. destruct (section ":functions" l4) as [o5 l5].
  apply alike_bind; [apply alike_optM; intros; apply alike_ret|].
  intros. apply alike_bind; [apply alike_mapM, structure_alike|]. intros. apply alike_bind; [now apply alike_modify|].
  intros. apply alike_ret.
Qed.

(** * The constructor *)
Section Checks.
  Variables (types : types_dict) (rs rs' : list req).
  Hypothesis S : same_used_flags rs rs'.

  Lemma has_same r : ~ unused_flag r -> has r rs' = has r rs.
  Proof. exact (agree_of _ _ S r). Qed.
  Lemma has_extended r : ~ unused_flag r -> has r (extend_reqs rs') = has r (extend_reqs rs).
  Proof. exact (agree_of _ _ (extend_same _ _ S) r). Qed.
  Lemma check_term_same t : check_term types rs' t = check_term types rs t.
  Proof. unfold check_term, has_typing. now rewrite (has_extended TYPING) by used. Qed.
  Lemma iterR_same {A} (f g : A -> res unit) l : Forall (fun x => g x = f x) l -> iterR g l = iterR f l.
  Proof. induction 1 as [|x l E F IH]; [reflexivity|]. cbn [iterR]. now rewrite E, IH. Qed.
  Lemma check_terms_same ts : check_terms types rs' ts = check_terms types rs ts.
  Proof. apply iterR_same. apply Forall_forall. intros t _. apply check_term_same. Qed.
  Lemma check_vars_same vs : check_vars types rs' vs = check_vars types rs vs.
  Proof. apply iterR_same. apply Forall_forall. intros t _. apply check_term_same. Qed.
  Lemma check_form_same f : check_form types rs' f = check_form types rs f.
  Proof.
    induction f as [n ts|l r|n ts|v|k ops IH|k ops IH|f IH|q vs c IH|c e IHc IHe|vs e IH] using form_ind';
      cbn [check_form]; rewrite ?check_term_same, ?check_vars_same, ?check_terms_same, ?IHc, ?IHe; auto using iterR_same;
      now rewrite IH.
  Qed.
  Lemma check_action_same a : check_action types rs' a = check_action types rs a.
  Proof.
    unfold check_action, check_opt. rewrite check_terms_same.
    destruct (a_pre a), (a_eff a); rewrite ?check_form_same; reflexivity.
  Qed.
  Lemma mk_types_same d : mk_types d rs' false = mk_types d rs false.
  Proof.
    unfold mk_types, check_types_dictionary. rewrite (has_same TYPING) by used. reflexivity.
  Qed.
  Lemma check_total_cost_same d : check_total_cost d rs' = check_total_cost d rs.
  Proof.
    unfold check_total_cost. rewrite (has_same ACTION_COSTS) by used. rewrite (has_extended NUMERIC_FLUENTS) by used. reflexivity.
  Qed.
End Checks.

Lemma mk_domain_same n rs rs' ty cs ps dps fs acts : same_used_flags rs rs' ->
  same_outcome (mk_domain n rs ty cs ps dps fs acts) (mk_domain n rs' ty cs ps dps fs acts).
Proof.
  intros S0. pose proof (dedup_same _ _ S0) as S. unfold mk_domain.
  destruct (parse_name n) as [n'|]; [|reflexivity]. cbn [bind].
  rewrite (mk_types_same _ _ S). destruct (mk_types ty (dedup req_eqb rs) false) as [ty'|]; [|reflexivity]. cbn [bind].
  rewrite (check_total_cost_same _ _ S). destruct (check_total_cost fs (dedup req_eqb rs)) as [[]|]; [|reflexivity]. cbn [bind].
  unfold domain_check_consistency. cbn [d_types d_reqs d_constants d_predicates d_actions d_derived].
  rewrite (check_terms_same ty' _ _ S).
  rewrite (iterR_same (fun p => check_terms ty' (dedup req_eqb rs) (snd p)) (fun p => check_terms ty' (dedup req_eqb rs') (snd p)))
    by (apply Forall_forall; intros; apply check_terms_same, S).
  rewrite (iterR_same (check_action ty' (dedup req_eqb rs)) (check_action ty' (dedup req_eqb rs')))
    by (apply Forall_forall; intros; apply check_action_same, S).
  match goal with |- same_outcome (bind ?x _) (bind ?x _) => destruct x as [[]|] end; [|reflexivity].
  cbn. repeat split.
Qed.

Lemma parse_domain_same s s' n rq rq' rest : other_sections rest ->
  ~ In OBJECT_FLUENTS rq -> ~ In OBJECT_FLUENTS rq' -> same_used_flags rq rq' ->
  domain_text s n (declared_sx rq ++ rest) -> domain_text s' n (declared_sx rq' ++ rest) ->
  same_outcome (parse_domain_fresh s) (parse_domain_fresh s').
Proof.
  intros O N N' S T T'. unfold parse_domain_fresh in *.
  rewrite (parse_domain_rule _ _ _ _ T), (parse_domain_rule _ _ _ _ T').
  rewrite (domain_rule_middle _ _ _ _ _ _ _ (section_declared rq rest O) (declared_run rq init_dstate N eq_refl)).
  rewrite (domain_rule_middle _ _ _ _ _ _ _ (section_declared rq' rest O) (declared_run rq' init_dstate N' eq_refl)).
  assert (G : agree (extend_reqs rq) (extend_reqs rq')) by (apply agree_of, extend_same, S).
  destruct (middle_alike (extend_reqs rq') rest (set_ext (extend_reqs rq) init_dstate) G) as [_ H].
  change (set_ext (extend_reqs rq') (set_ext (extend_reqs rq) init_dstate)) with (set_ext (extend_reqs rq') init_dstate) in H.
  unfold bindM. rewrite H. destruct (middle rest (set_ext (extend_reqs rq) init_dstate)) as [st2 r]. cbn [fst snd].
  destruct r as [[[[[[ty cs] ps] dps] fs] acts]|x]; [|reflexivity]. cbn [snd ret].
  apply mk_domain_same.
  assert (Q : forall l r, In r (opt_list (match l with [] => None | _ => Some (dedup req_eqb l) end)) <-> In r l).
  { intros l r. destruct l as [|x l]; [reflexivity|]. cbn [opt_list]. rewrite <- !has_In. unfold has. now rewrite (memb_dedup _ req_eqb_equiv). }
  intros r U. rewrite !Q. exact (S r U).
Qed.
