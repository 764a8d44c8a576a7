(** Domains, problems, actions and plans. *)
From Coq Require Import String List Bool Permutation Lia.
From Verif Require Import Spec_Core Py Names Reqs Logic Validation Core Spec Built
  Py_facts Logic_facts Ops_facts Built_facts Names_facts Order_facts CoreEq_facts
  Cycle_facts Validation_facts Inst_facts.
Import ListNotations.
Open Scope string_scope.
Open Scope list_scope.

(** ** Domain *)
Lemma domain_built_types d : domain_built d ->
  NoDup (map fst (d_types d)) /\ types_legal (d_types d) /\ norm_types (d_types d) = d_types d.
Proof.
  intros (n & rs & ty & cs & ps & dps & fs & acts & H).
  apply mk_domain_inv in H as (_ & _ & _ & Ht & _). eapply mk_types_norm; eauto.
Qed.

Lemma domain_check_Ok d : norm_types (d_types d) = d_types d ->
  domain_check_consistency d = Ok tt <-> domain_consistent d.
Proof.
  intros N. unfold domain_check_consistency, domain_consistent. split.
  - intros H. apply bind_Ok in H as ([] & H1 & H). apply bind_Ok in H as ([] & H2 & H).
    apply bind_Ok in H as ([] & H3 & H). apply bind_Ok in H as ([] & H4 & H5).
    rewrite check_terms_Ok in H1 by auto. rewrite iterR_Ok, Forall_forall in H2. rewrite iterR_Ok, Forall_forall in H3.
    rewrite check_has_terms_Ok in H5 by auto. split; [|split; [|split]].
    + intros c Hc. apply H1. now apply in_map.
    + intros p t Hp Ht. specialize (H2 p Hp). rewrite check_terms_Ok in H2 by auto. auto.
    + intros a Ha. apply (check_action_Ok _ _ N). auto.
    + intros x t g Hx Ht Hg. apply (H5 (dp_terms x) t g); auto. now apply in_map.
  - intros (A & B & C & D).
    assert (check_terms (d_types d) (d_reqs d) (map const_term (d_constants d)) = Ok tt) as ->.
    { apply check_terms_Ok; auto. intros t Ht. apply in_map_iff in Ht as (c & <- & Hc). auto. }
    simpl.
    assert (iterR (fun p => check_terms (d_types d) (d_reqs d) (snd p)) (d_predicates d) = Ok tt) as ->.
    { apply iterR_Ok, Forall_forall. intros p Hp. apply check_terms_Ok; auto. intros. eapply B; eauto. }
    simpl.
    assert (iterR (check_action (d_types d) (d_reqs d)) (d_actions d) = Ok tt) as ->.
    { apply iterR_Ok, Forall_forall. intros a Ha. apply check_action_Ok; auto. }
    simpl.
    assert (check_has_terms (d_types d) (map a_params (d_actions d)) = Ok tt) as ->.
    { apply check_has_terms_Ok; auto. intros ts t g Hts Ht Hg. apply in_map_iff in Hts as (a & <- & Ha).
      destruct (C a Ha) as (_ & _ & T & _). apply (T t Ht). auto. }
    simpl. apply check_has_terms_Ok; auto. intros ts t g Hts Ht Hg.
    apply in_map_iff in Hts as (x & <- & Hx). eapply D; eauto.
Qed.

Lemma mk_domain_Ok n rs ty cs ps dps fs acts d : NoDup (map fst ty) ->
  mk_domain n rs (Some ty) cs ps dps fs acts = Ok d <->
  d = mkDomain n (dedup req_eqb rs) (norm_types ty) (dedup const_eqb cs) (dedup atom_eqb ps)
               (dedup derived_eqb dps) fs (dedup action_eqb acts) /\
  legal_name n /\
  (types_legal ty /\ ((exists k p, supertype ty k p) -> In TYPING rs) /\ hierarchy_ok ty) /\
  ((exists n ts v, In ((n, ts), v) fs /\ n = "total-cost") -> In ACTION_COSTS rs) /\
  ((exists n ts v, In ((n, ts), v) fs /\ n <> "total-cost") -> In NUMERIC_FLUENTS rs \/ In FLUENTS rs) /\
  domain_consistent d.
Proof.
  intros ND.
  assert (RQ : forall r, In r (dedup req_eqb rs) <-> In r rs).
  { intros r. rewrite <- !memb_req_In. now rewrite (memb_dedup _ req_eqb_equiv). }
  assert (MT : forall t, mk_types (Some ty) (dedup req_eqb rs) false = Ok t <->
     t = norm_types ty /\ types_legal ty /\ ((exists k p, supertype ty k p) -> In TYPING rs) /\ hierarchy_ok ty).
  { intros t. rewrite mk_types_Ok by auto. now rewrite RQ. }
  assert (TC : check_total_cost fs (dedup req_eqb rs) = Ok tt <->
    ((exists n ts v, In ((n, ts), v) fs /\ n = "total-cost") -> In ACTION_COSTS rs) /\
    ((exists n ts v, In ((n, ts), v) fs /\ n <> "total-cost") -> In NUMERIC_FLUENTS rs \/ In FLUENTS rs)).
  { rewrite check_total_cost_Ok. now rewrite !RQ. }
  unfold mk_domain. split.
  - intros H. apply bind_Ok in H as (n' & H1 & H). apply parse_name_Ok' in H1 as [-> H1].
    apply bind_Ok in H as (t & H2 & H). apply MT in H2 as (-> & H2).
    apply bind_Ok in H as ([] & H3 & H). apply TC in H3 as [H3 H3'].
    apply bind_Ok in H as ([] & H4 & H). inversion H; subst.
    apply domain_check_Ok in H4; [|apply norm_types_idem]. auto 10.
  - intros (-> & H1 & H2 & H3 & H3' & H4). rewrite (proj2 (parse_name_Ok n) H1). simpl.
    rewrite (proj2 (MT (norm_types ty))) by auto. simpl. rewrite (proj2 TC) by auto. simpl.
    match goal with |- context [domain_check_consistency ?d] =>
      rewrite (proj2 (domain_check_Ok d (norm_types_idem ty)) H4) end. reflexivity.
Qed.

(** ** Action.instantiate *)
Definition mapping_of (a : action) (ts : list term) : mapping :=
  dict_of_list term_eqb (combine (a_params a) ts).

Lemma combine_fst {A B} (l : list A) (m : list B) : length m = length l -> map fst (combine l m) = l.
Proof. revert m. induction l; destruct m; simpl; intros; try discriminate; auto. f_equal. auto. Qed.

Lemma mapping_get a ts k : length ts = length (a_params a) ->
  match dict_get term_eqb k (mapping_of a ts) with
  | Some u => In u ts
  | None => memb term_eqb k (a_params a) = false
  end.
Proof.
  intros L. unfold mapping_of. rewrite (dict_get_of_list _ term_eqb_equiv).
  destruct (dict_get term_eqb k (rev (combine (a_params a) ts))) as [u|] eqn:G.
  - apply dict_get_In in G as (k' & G & _). apply in_rev in G. now apply in_combine_r in G.
  - destruct (memb term_eqb k (a_params a)) eqn:M; auto.
    assert (X : memb term_eqb k (map fst (rev (combine (a_params a) ts))) = true).
    { rewrite map_rev, combine_fst by auto.
      apply memb_In in M as (y & Hy & E). apply memb_In. exists y. split; auto. now apply -> in_rev. }
    pose proof (dict_get_memb term_eqb k (rev (combine (a_params a) ts))) as Y.
    rewrite X, G in Y. discriminate.
Qed.

Lemma inst_opt_Ok m o : (forall f, o = Some f -> exists g, instantiate m f = Ok g) ->
  exists o', inst_opt m o = Ok o'.
Proof. destruct o as [f|]; simpl; intros H; [|eauto]. destruct (H f eq_refl) as (g & ->). simpl. eauto. Qed.

Lemma action_instantiate_arity a ts : length ts <> length (a_params a) ->
  action_instantiate a ts = Err ValueError.
Proof.
  intros N. unfold action_instantiate, check. destruct (PeanoNat.Nat.eqb_spec (length ts) (length (a_params a))); [contradiction|].
  reflexivity.
Qed.
Lemma action_instantiate_Ok a vs ts : param_vars a vs -> length ts = length (a_params a) ->
  legal_name (a_name a) -> body_ok built a -> body_ok plain a ->
  consistent (grounded_terms a ts) ->
  exists a', action_instantiate a ts = Ok a'.
Proof.
  intros PV L LN B P C. unfold action_instantiate. rewrite L, PeanoNat.Nat.eqb_refl. cbn [check bind].
  fold (mapping_of a ts).
  assert (X : forall f, a_pre a = Some f \/ a_eff a = Some f -> exists g, instantiate (mapping_of a ts) f = Ok g).
  { intros f Hf. apply instantiate_Ok; auto.
    assert (S : forall t, family (mapping_of a ts) f t -> grounded_terms a ts t).
    { intros t (t0 & Ht & ->). destruct t0 as [n g|v]; simpl.
      - right. split; [exists f; auto|]. rewrite PV. apply memb_false. intros y Hy.
        apply in_map_iff in Hy as (v & <- & _). reflexivity.
      - pose proof (mapping_get a ts (TVar v) L) as G.
        destruct (dict_get term_eqb (TVar v) (mapping_of a ts)) as [u|].
        + now left.
        + right. split; auto. exists f; auto. }
    intros t u Ht Hu. apply C; auto. }
  destruct (inst_opt_Ok (mapping_of a ts) (a_pre a)) as (p & ->); [auto|].
  destruct (inst_opt_Ok (mapping_of a ts) (a_eff a)) as (q & ->); [auto|].
  simpl. unfold mk_action. rewrite (proj2 (parse_name_Ok _) LN). simpl. eauto.
Qed.
Lemma action_instantiate_inv a ts a' : action_instantiate a ts = Ok a' ->
  length ts = length (a_params a) /\ a_name a' = a_name a /\ a_params a' = ts /\
  inst_opt (mapping_of a ts) (a_pre a) = Ok (a_pre a') /\
  inst_opt (mapping_of a ts) (a_eff a) = Ok (a_eff a').
Proof.
  unfold action_instantiate. intros H. apply bind_Ok in H as ([] & H1 & H). apply check_Ok in H1.
  apply PeanoNat.Nat.eqb_eq in H1. apply bind_Ok in H as (p & H2 & H). apply bind_Ok in H as (q & H3 & H).
  unfold mk_action in H. apply bind_Ok in H as (n & H4 & H). inversion H; subst. simpl.
  apply parse_name_id in H4. auto.
Qed.
Lemma action_instantiate_ground a vs ts a' : param_vars a vs -> action_instantiate a ts = Ok a' ->
  (forall t, In t ts -> exists n g, t = TConst n g) ->
  forall v w, In v vs -> var_eqb v w = true -> ~ body_terms a' (TVar w).
Proof.
  intros PV H G v w Hv E (g & Hg & A). apply action_instantiate_inv in H as (L & _ & _ & Hp & Hq).
  assert (X : exists f, instantiate (mapping_of a ts) f = Ok g).
  { destruct Hg as [Hg|Hg]; [rewrite Hg in Hp; destruct (a_pre a) as [f|]|rewrite Hg in Hq; destruct (a_eff a) as [f|]];
      simpl in *; try discriminate.
    - apply bind_Ok in Hp as (g' & Hp & Ep). inversion Ep; subst. eauto.
    - apply bind_Ok in Hq as (g' & Hq & Ep). inversion Ep; subst. eauto. }
  destruct X as (f & F). destruct (argument_inst _ _ _ _ F A) as (t0 & _ & T0).
  destruct t0 as [n gg|v0]; simpl in T0; [discriminate|].
  pose proof (mapping_get a ts (TVar v0) L) as M.
  destruct (dict_get term_eqb (TVar v0) (mapping_of a ts)) as [u|].
  - subst u. destruct (G _ M) as (n & gg & D). discriminate.
  - inversion T0; subst v0. rewrite PV in M. rewrite memb_false in M.
    assert (Y : term_eqb (TVar w) (TVar v) = false) by (apply M; now apply in_map).
    simpl in Y. rewrite (eqv_sym _ var_eqb_equiv) in Y. congruence.
Qed.

(** ** Plan.check *)
Section PlanCheck.
  Variables (d : domain) (p : problem).
  Lemma schema_get n a : NoDup (map a_name (d_actions d)) ->
    dict_get String.eqb n (name_to_schema d) = Some a <-> In a (d_actions d) /\ a_name a = n.
  Proof.
    intros ND. unfold name_to_schema.
    rewrite dict_of_list_id; [|apply string_eqb_equiv|rewrite map_map; now apply NoDupE_string].
    split.
    - intros H. apply dict_get_In in H as (k & H & E). apply String.eqb_eq in E. subst.
      apply in_map_iff in H as (b & Eb & H). inversion Eb; subst. auto.
    - intros [H <-]. apply dict_get_In_iff; [apply string_eqb_equiv|rewrite map_map; now apply NoDupE_string|].
      apply in_map_iff. exists a. auto.
  Qed.
  Lemma schema_some n : memb String.eqb n (map a_name (d_actions d)) = true ->
    exists a, dict_get String.eqb n (name_to_schema d) = Some a.
  Proof.
    intros H. unfold name_to_schema. rewrite (dict_get_of_list _ string_eqb_equiv).
    assert (M : memb String.eqb n (map fst (rev (map (fun a => (a_name a, a)) (d_actions d)))) = true).
    { apply memb_string_In. rewrite map_rev, <- in_rev, map_map. simpl. now apply memb_string_In. }
    pose proof (dict_get_memb String.eqb n (rev (map (fun a => (a_name a, a)) (d_actions d)))) as Y.
    rewrite M in Y. destruct (dict_get String.eqb n (rev _)) as [a|]; [eauto|discriminate].
  Qed.

  Lemma objects_In cs :
    forallb (fun c => memb const_eqb c (union const_eqb (p_objects p) (d_constants d))) cs = true <->
    forall c, In c cs -> exists o, (In o (p_objects p) \/ In o (d_constants d)) /\ fst o = fst c.
  Proof.
    rewrite forallb_forall. split.
    - intros H c Hc. specialize (H c Hc). rewrite (union_spec _ const_eqb_equiv) in H.
      apply orb_prop in H as [H|H]; apply memb_In in H as (o & Ho & E); unfold const_eqb in E;
        apply String.eqb_eq in E; exists o; auto.
    - intros H c Hc. destruct (H c Hc) as (o & Ho & E). rewrite (union_spec _ const_eqb_equiv).
      apply orb_true_iff. destruct Ho as [Ho|Ho]; [left|right]; apply memb_In; exists o; split; auto;
        unfold const_eqb; rewrite E; apply String.eqb_refl.
  Qed.

  Lemma plan_check_step_Ok st : NoDup (map a_name (d_actions d)) ->
    plan_check_step d p st = Ok tt <-> known_step d p st.
  Proof.
    intros ND. unfold plan_check_step, known_step. split.
    - intros H. apply bind_Ok in H as ([] & H1 & H). apply check_Ok in H1.
      destruct (dict_get String.eqb (fst st) (name_to_schema d)) as [a|] eqn:G; [|discriminate].
      apply schema_get in G as [Ha En]; auto. apply bind_Ok in H as ([] & H2 & H3). apply check_Ok in H2, H3.
      apply PeanoNat.Nat.eqb_eq in H2. rewrite objects_In in H3. exists a. auto.
    - intros (a & Ha & En & L & O).
      assert (memb String.eqb (fst st) (map a_name (d_actions d)) = true) as ->.
      { apply memb_string_In. rewrite <- En. now apply in_map. }
      simpl. assert (dict_get String.eqb (fst st) (name_to_schema d) = Some a) as -> by (apply schema_get; auto).
      rewrite L, PeanoNat.Nat.eqb_refl. simpl. apply check_Ok. now apply objects_In.
  Qed.
  Lemma plan_check_step_err st e : plan_check_step d p st = Err e -> e = PDDLValidationError.
  Proof.
    unfold plan_check_step, check. destruct (memb _ _ _) eqn:M; simpl; [|now intros [= <-]].
    destruct (schema_some _ M) as (a & ->). destruct (Nat.eqb _ _); simpl; [|now intros [= <-]].
    destruct (forallb _ _); now intros [= <-].
  Qed.
  Lemma plan_check_Ok pl : NoDup (map a_name (d_actions d)) ->
    plan_check pl d p = Ok tt <-> forall st, In st pl -> known_step d p st.
  Proof.
    intros ND. unfold plan_check. rewrite iterR_Ok, Forall_forall.
    split; intros H st Hst; apply plan_check_step_Ok; auto.
  Qed.
  Lemma plan_check_err pl e : plan_check pl d p = Err e -> e = PDDLValidationError.
  Proof. apply (iterR_err _ _ _ (fun e => e = PDDLValidationError)). intros st _. apply plan_check_step_err. Qed.
End PlanCheck.

Lemma plan_check_perm pl d d' p p' :
  NoDup (map a_name (d_actions d)) -> Permutation (d_actions d) (d_actions d') ->
  Permutation (d_constants d) (d_constants d') -> Permutation (p_objects p) (p_objects p') ->
  plan_check pl d p = plan_check pl d' p'.
Proof.
  intros ND PA PC PO.
  assert (ND' : NoDup (map a_name (d_actions d'))).
  { eapply Permutation_NoDup; [|exact ND]. now apply Permutation_map. }
  assert (E : plan_check pl d p = Ok tt <-> plan_check pl d' p' = Ok tt).
  { rewrite !plan_check_Ok by auto. unfold known_step.
    split; intros H st Hst; destruct (H st Hst) as (a & Ha & En & L & O); exists a; split.
    - eapply Permutation_in; eauto.
    - split; auto. split; auto. intros c Hc. destruct (O c Hc) as (o & [Ho|Ho] & Eo); exists o; split; auto.
      + left. eapply Permutation_in; eauto.
      + right. eapply Permutation_in; eauto.
    - eapply Permutation_in; [apply Permutation_sym|]; eauto.
    - split; auto. split; auto. intros c Hc. destruct (O c Hc) as (o & [Ho|Ho] & Eo); exists o; split; auto.
      + left. eapply Permutation_in; [apply Permutation_sym|]; eauto.
      + right. eapply Permutation_in; [apply Permutation_sym|]; eauto. }
  destruct (plan_check pl d p) as [[]|e] eqn:X, (plan_check pl d' p') as [[]|e'] eqn:Y; auto.
  - exfalso. assert (Err e' = Ok tt) by tauto. discriminate.
  - exfalso. assert (Err e = Ok tt) by tauto. discriminate.
  - apply plan_check_err in X, Y. now subst.
Qed.

(** ** Plan.instantiate *)
Lemma plan_instantiate_Ok pl d p :
  (forall a, In a (d_actions d) -> schema_ok a) ->
  (forall st a, In st pl -> In a (d_actions d) -> a_name a = fst st ->
     consistent (grounded_terms a (map const_term (snd st)))) ->
  plan_check pl d p = Ok tt ->
  exists l, plan_instantiate pl d = Ok l /\
    Forall2 (fun st a => a_name a = fst st /\ a_params a = map const_term (snd st)) pl l.
Proof.
  intros S C H. unfold plan_check in H. rewrite iterR_Ok in H. unfold plan_instantiate.
  induction H as [|st pl Hst H IH]; simpl; [eauto|].
  destruct IH as (l & E & F). { intros st' a' Hs. apply C. now right. }
  unfold plan_check_step in Hst. apply bind_Ok in Hst as ([] & H1 & H2).
  destruct (dict_get String.eqb (fst st) (name_to_schema d)) as [a|] eqn:G; [|discriminate].
  apply bind_Ok in H2 as ([] & H2 & _). apply check_Ok in H2. apply PeanoNat.Nat.eqb_eq in H2.
  assert (Ha : In a (d_actions d) /\ a_name a = fst st).
  { unfold name_to_schema in G. rewrite (dict_get_of_list _ string_eqb_equiv) in G.
    apply dict_get_In in G as (k & G & Ek). apply String.eqb_eq in Ek. subst k.
    apply in_rev, in_map_iff in G as (b & Eb & Hb). inversion Eb; subst. auto. }
  destruct Ha as [Ha En]. destruct (S a Ha) as ((vs & PV) & LN & B & P).
  assert (L : length (map const_term (snd st)) = length (a_params a)) by now rewrite map_length.
  destruct (action_instantiate_Ok a vs (map const_term (snd st)) PV L LN B P) as (a' & Ea).
  { apply C; auto. now left. }
  rewrite Ea, E. simpl. exists (a' :: l). split; auto. constructor; auto.
  apply action_instantiate_inv in Ea as (_ & E1 & E2 & _). rewrite E1. auto.
Qed.

(** ** Problem *)
Lemma problem_check_Ok p d : domain_built d ->
  problem_check p d = Ok tt <->
  lower (get_domain_name p) = lower (d_name d) /\
  (forall rs, p_reqs p = Some rs -> incl rs (d_reqs d)) /\ problem_typed p d.
Proof.
  intros DB. destruct (domain_built_types d DB) as (ND & TL & N).
  unfold problem_check, problem_typed. rewrite (mk_types_skip _ _ ND TL N).
  assert (RS : match p_reqs p with None => true | Some rs => subset req_eqb rs (d_reqs d) end = true <->
               forall rs, p_reqs p = Some rs -> incl rs (d_reqs d)).
  { destruct (p_reqs p) as [rs|].
    - rewrite subset_In. split.
      + intros H rs' [= <-] r Hr. apply memb_req_In. auto.
      + intros H r Hr. apply memb_req_In. now apply (H rs eq_refl).
    - split; auto. intros _ rs. discriminate. }
  split.
  - intros H. apply bind_Ok in H as ([] & H1 & H). apply check_Ok in H1. apply String.eqb_eq in H1.
    apply bind_Ok in H as ([] & H2 & H). apply check_Ok in H2. cbn [bind] in H.
    apply bind_Ok in H as ([] & H3 & H). apply bind_Ok in H as ([] & H4 & H5).
    rewrite check_terms_Ok in H3 by auto. rewrite iterR_Ok, Forall_forall in H4.
    rewrite check_form_Ok in H5 by auto. split; auto. split; [now apply RS|].
    split; [intros c Hc; apply H3; now apply in_map|]. split; auto.
    intros f Hf. specialize (H4 f Hf). now rewrite check_form_Ok in H4.
  - intros (H1 & H2 & H3 & H4 & H5). rewrite H1, String.eqb_refl. cbn [check bind].
    rewrite (proj2 RS H2). cbn [check bind].
    rewrite (proj2 (check_terms_Ok _ _ N _)).
    2:{ intros t Ht. apply in_map_iff in Ht as (c & <- & Hc). auto. }
    cbn [bind]. rewrite (proj2 (iterR_Ok _ _)).
    2:{ apply Forall_forall. intros f Hf. apply check_form_Ok; auto. }
    cbn [bind]. now apply check_form_Ok.
Qed.

Lemma mk_problem_inv n d dn rs objs init goal m p : mk_problem n d dn rs objs init goal m = Ok p ->
  p_domain p = d /\ problem_check_consistency p = Ok tt /\ forallb is_literal (p_init p) = true.
Proof.
  unfold mk_problem. intros H. apply bind_Ok in H as (n' & _ & H). apply bind_Ok in H as ((d', dn') & H1 & H).
  apply bind_Ok in H as (rs' & _ & H). apply bind_Ok in H as ([] & H2 & H). apply check_Ok in H2.
  apply bind_Ok in H as ([] & H3 & H). inversion H; subst. simpl in *. split; auto.
  unfold parse_domain_and_name in H1. destruct d, dn.
  - apply bind_Ok in H1 as ([] & _ & H1). apply bind_Ok in H1 as (x & _ & H1). now inversion H1.
  - now inversion H1.
  - apply bind_Ok in H1 as (x & _ & H1). now inversion H1.
  - discriminate.
Qed.

Lemma problem_reach_ok p : problem_reach p -> forall d, p_domain p = Some d ->
  domain_built d /\ problem_check p d = Ok tt.
Proof.
  induction 1 as [n d dn rs objs init goal m p DB H|p d p' R IH DB H]; intros d' E.
  - apply mk_problem_inv in H as (D & C & _). unfold problem_check_consistency in C.
    rewrite E in C. split; auto. apply DB. congruence.
  - unfold set_domain in H. inversion H; subst. simpl in E. inversion E; subst.
    simpl in H2. rewrite H2. auto.
Qed.
