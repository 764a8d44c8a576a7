(** Which exceptions the parsers can raise. *)
From Coq Require Import String List Bool Arith NArith Lia.
From Verif Require Import Py Names Reqs Logic Validation Core Lexer TypedList UpdateTags Parser.
From Verif Require Import Py_facts Names_facts Logic_facts Built_facts Spec_Parse TypedList_facts Parse_facts GD_facts
  Domain_facts Number_facts Spec_Declared Declared_facts Raise_facts.
Import ListNotations.
Open Scope string_scope.
Open Scope list_scope.

(** ** update_type_tags: When and Forall do not occur in conditions *)
Fixpoint no_effect (f : form) : Prop :=
  match f with
  | FBinFun _ ops | FBin _ ops => fold_right (fun g p => no_effect g /\ p) True ops
  | FNot g => no_effect g
  | FQuant _ _ g => no_effect g
  | FWhen _ _ | FForall _ _ => False
  | _ => True
  end.
Lemma no_effect_ops c f ops : ops_if c f = Some ops -> no_effect f -> Forall no_effect ops.
Proof.
  intros O L. apply ops_if_raw in O. subst f. destruct c; cbn [raw_node no_effect] in L; now apply fold_and_Forall.
Qed.
Lemma gd_no_effect c s f : gd c s = Ok f -> no_effect f.
Proof.
  apply gd_P; intros; cbn; auto.
  - apply mk_pred_Ok in H0 as ->. exact I.
  - apply mk_eq_Ok in H1 as ->. exact I.
  - apply mk_numfun_Ok in H0 as ->. exact I.
  - apply (mk_op_P no_effect (CFun k)); eauto using no_effect_ops.
    intros l L. cbn [raw_node no_effect]. now apply fold_and_Forall.
  - apply (mk_op_P no_effect (CBin k)); eauto using no_effect_ops.
    intros l L. cbn [raw_node no_effect]. now apply fold_and_Forall.
Qed.

Lemma replace_term_within m t : within nameE (replace_term m t).
Proof.
  destruct t as [n g|v]; cbn; [apply within_Ok|]. destruct (dict_get String.eqb (v_name v) m); [|apply within_Ok].
  apply within_bind; [apply mk_var_within|intros; apply within_Ok].
Qed.
Lemma update_within f : forall m, no_effect f -> within nameE (update_type_tags m f).
Proof.
  assert (T : forall m ts, within nameE (mapR (replace_term m) ts)).
  { intros. apply within_mapR. intros; apply replace_term_within. }
  assert (O : forall ops, Forall (fun f => forall m, no_effect f -> within nameE (update_type_tags m f)) ops ->
    fold_right (fun g p => no_effect g /\ p) True ops -> forall m, within nameE (mapR (update_type_tags m) ops)).
  { intros ops F N m. apply within_mapR. rewrite Forall_forall in F. apply fold_and_Forall in N.
    rewrite Forall_forall in N. auto. }
  induction f using form_ind'; intros m N; cbn [update_type_tags]; cbn [no_effect] in N; try contradiction;
    try apply within_Ok.
  - apply within_bind; [apply T|intros; apply mk_pred_within].
  - apply within_bind; [apply replace_term_within|intros; apply within_bind; [apply replace_term_within|intros; apply mk_eq_within]].
  - apply within_bind; [apply T|intros; apply mk_numfun_within].
  - apply within_bind; [now apply O|intros; apply within_Ok].
  - apply within_bind; [now apply O|intros; apply within_Ok].
  - apply within_bind; [now apply IHf|intros; apply within_Ok].
  - apply within_bind; [now apply IHf|intros; apply within_Ok].
Qed.

(** ** the domain parser *)
Definition domainE := [ValueError; TypeError; RuntimeError; PDDLValidationError; PDDLParsingError;
                       PDDLMissingRequirementError TYPING; PDDLMissingRequirementError EQUALITY;
                       PDDLMissingRequirementError DIS_PRECONDITION;
                       PDDLMissingRequirementError EXISTENTIAL_PRECONDITION;
                       PDDLMissingRequirementError UNIVERSAL_PRECONDITION;
                       PDDLMissingRequirementError NON_DETERMINISTIC;
                       LarkParseError; LarkSyntaxError; Diverges].
(** without PDDLMissingRequirementError *)
Definition plainE := [ValueError; TypeError; RuntimeError; PDDLValidationError; PDDLParsingError;
                      LarkParseError; LarkSyntaxError; Diverges].
Ltac ind := cbn [In nameE listE domainE plainE]; tauto.
Lemma plain_domain : incl plainE domainE.
Proof. intros e. ind. Qed.
Lemma nameE_plain : incl nameE plainE.
Proof. intros e. ind. Qed.
Lemma listE_plain : incl listE plainE.
Proof. intros e. ind. Qed.
Lemma nameE_domain : incl nameE domainE.
Proof. intros e. ind. Qed.
Lemma listE_domain : incl listE domainE.
Proof. intros e. ind. Qed.

Lemma within_bindM {A B} E (m : M A) (k : A -> M B) st :
  within E (snd (m st)) -> (forall a st', m st = (st', Ok a) -> within E (snd (k a st'))) ->
  within E (snd (bindM m k st)).
Proof.
  unfold bindM. destruct (m st) as [st' [a|e]]; cbn [snd]; intros H K; [exact (K a st' eq_refl)|].
  intros e' E'. injection E' as <-. now apply H.
Qed.
Lemma within_mapM {A B} E (f : A -> M B) l : (forall x st, In x l -> within E (snd (f x st))) ->
  forall st, within E (snd (mapM f l st)).
Proof.
  induction l as [|x l IH]; intros H st; [apply within_Ok|]. cbn [mapM].
  apply within_bindM; [apply H; now left|intros y st1 _].
  apply within_bindM; [apply IH; intros; apply H; now right|intros; apply within_Ok].
Qed.
Lemma within_optM {A} E (f : list sexp -> M A) o st : (forall l, o = Some l -> within E (snd (f l st))) ->
  within E (snd (optM f o st)).
Proof.
  intros H. destruct o as [l|]; cbn [optM]; [|apply within_Ok].
  apply within_bindM; [now apply H|intros; apply within_Ok].
Qed.

Lemma domain_const_within st n : within domainE (g_const (domain_ctx st) n).
Proof.
  cbn. destruct (dict_get String.eqb n (s_constants st)); [apply within_Ok|apply within_Err; ind].
Qed.
Lemma domain_vars_within st l : within domainE (g_vars (domain_ctx st) l).
Proof. eapply within_incl; [apply typed_list_variable_within|apply listE_domain]. Qed.
Ltac cx := first [exact nameE_domain | apply domain_const_within | apply domain_vars_within
  | match goal with H : In ?r _ |- In (PDDLMissingRequirementError ?r) _ => repeat destruct H as [<-|H]; [ind..|destruct H] end
  | ind].

Lemma require_keys_within l : within [LarkSyntaxError] (require_keys l).
Proof. destruct l; cbn [require_keys]; [apply within_Err; ind|apply within_of_opt; ind]. Qed.
Lemma requirements_within l st : within domainE (snd (requirements l st)).
Proof.
  apply within_bindM; [|intros; apply within_Ok].
  cbn [ret snd]. eapply within_incl; [apply require_keys_within|]. intros e. ind.
Qed.
Lemma types_within E l st : incl domainE E -> s_types st = None \/ In AssertionError E ->
  within E (snd (types_section l st)).
Proof.
  intros I H. apply within_bindM.
  - cbn [ret snd]. eapply within_incl; [apply typed_list_name_within|]. eapply incl_tran; [apply listE_domain|exact I].
  - intros d st1 H1. apply ret_Ok in H1 as [-> _]. apply within_bindM; [apply within_check; apply I; ind|].
    intros [] st2 H2. apply reads_Ok in H2 as [-> _]. apply within_bindM; [|intros; apply within_Ok].
    cbn [reads snd]. destruct H as [->|H]; [apply within_Ok|now apply within_check].
Qed.
Lemma constants_within d : within nameE (constants_by_name d).
Proof.
  apply within_bind; [|intros; apply within_Ok]. apply within_mapR. intros p _.
  apply within_bind; [apply mk_const_within|intros; apply within_Ok].
Qed.
Lemma constants_section_within l st : within plainE (snd (constants_section l st)).
Proof.
  apply within_bindM.
  - cbn [ret snd]. eapply within_incl; [apply typed_list_name_within|apply listE_plain].
  - intros d st1 _. apply within_bindM; [|intros; apply within_Ok].
    cbn [ret snd]. eapply within_incl; [apply constants_within|apply nameE_plain].
Qed.
Lemma skeleton_within s : within plainE (atomic_formula_skeleton s).
Proof.
  destruct s as [|[|[[]|] vs]]; try (apply within_Err; ind). cbn [atomic_formula_skeleton].
  apply within_bind; [eapply within_incl; [apply typed_list_variable_within|apply listE_plain]|intros tl _].
  apply within_bind; [eapply within_incl; [apply mk_vars_within|apply nameE_plain]|intros vars _].
  apply within_bind; [eapply within_incl; [apply mk_pred_within|apply nameE_plain]|intros p _].
  destruct p; try apply within_Ok; apply within_Err; ind.
Qed.
Lemma predicates_within l st : within plainE (snd (predicates_section l st)).
Proof.
  apply within_bindM; [|intros; apply within_Ok]. cbn [ret snd].
  destruct l; [apply within_Err; ind|]. apply within_mapR. intros; apply skeleton_within.
Qed.
Lemma fskeleton_within s : within plainE (atomic_function_skeleton s).
Proof.
  destruct s as [|[|[[]|] vs]]; try (apply within_Err; ind). cbn [atomic_function_skeleton].
  apply within_bind; [eapply within_incl; [apply typed_list_variable_within|apply listE_plain]|intros tl _].
  destruct (String.eqb s "total-cost"); [apply within_Ok|].
  apply within_bind; [eapply within_incl; [apply mk_vars_within|apply nameE_plain]|intros vars _].
  apply within_bind; [eapply within_incl; [apply mk_numfun_within|apply nameE_plain]|intros p _].
  destruct p; try apply within_Ok; apply within_Err; ind.
Qed.
Lemma tl_functions_within l : forall seen, within plainE (tl_functions seen l).
Proof.
  induction l as [l IH] using (well_founded_induction (Wf_nat.well_founded_ltof _ (@length sexp))).
  intros seen.
  assert (G : forall s r, l = s :: r -> within plainE
     (let* f := atomic_function_skeleton s in let* ts := tl_functions true r in Ok (IItem f :: ts))).
  { intros s r ->. apply within_bind; [apply fskeleton_within|intros f _].
    apply within_bind; [apply IH; unfold Wf_nat.ltof; cbn; lia|intros; apply within_Ok]. }
  destruct l as [|s [|s' r]]; [apply within_Ok| |].
  - destruct s as [[]|]; cbn [tl_functions]; apply (G _ _ eq_refl).
  - destruct s as [[]|]; cbn [tl_functions]; try apply (G _ _ eq_refl).
    destruct s' as [[]|]; cbn [tl_functions]; try apply (G _ _ eq_refl).
    destruct (_ && _ && _); [|apply within_Err; ind].
    apply within_bind; [apply IH; unfold Wf_nat.ltof; cbn; lia|intros; apply within_Ok].
Qed.
Lemma functions_within l : within plainE (functions_section l).
Proof.
  destruct l as [|s l]; [apply within_Err; ind|]. unfold functions_section.
  apply within_bind; [apply tl_functions_within|intros toks T].
  destruct (tlf_written _ _ T) as (out & W). destruct (tlf_assigned _ _ W _ T) as (groups & tail & -> & _).
  apply within_except; [|ind]. eapply (within_incl nameE); [|intros e; ind].
  apply within_bind; [|intros; apply names_within]. rewrite parse_typed_list_all.
  apply add_all_within. intros; apply within_Ok.
Qed.

Lemma action_body_within l st : within domainE (action_body l st).
Proof.
  assert (P : forall x, within domainE (emptyor_pregd (domain_ctx st) x)) by (intros; apply emptyor_pregd_within; intros; cx).
  assert (Q : forall x, within domainE (emptyor_effect (domain_ctx st) x)) by (intros; apply emptyor_effect_within; intros; cx).
  assert (S0 : within domainE (@syntax (form * form))) by (apply within_Err; ind).
  assert (T0 : within domainE (@Err (form * form) TypeError)) by (apply within_Err; ind).
  unfold action_body. destruct l as [|k1 [|x [|k2 [|y [|]]]]]; auto.
  - destruct (is_kw ":precondition" k1); [apply within_bind; auto|].
    destruct (is_kw ":effect" k1); [apply within_bind; auto|auto].
  - destruct (is_kw ":precondition" k1 && is_kw ":effect" k2); auto.
    apply within_bind; auto. intros; apply within_bind; auto. intros; apply within_Ok.
Qed.
Lemma action_def_within l st : within domainE (snd (action_def l st)).
Proof.
  unfold action_def.
  destruct l as [|[[]|] [|k [|[t|ps] body]]]; try (apply within_Err; ind).
  destruct (is_kw ":parameters" k); [|apply within_Err; ind].
  apply within_bindM.
  - apply within_bindM; [cbn [ret snd]; eapply within_incl; [apply typed_list_variable_within|apply listE_domain]|].
    intros tl st1 _. apply within_bindM; [|intros; apply within_Ok].
    cbn [ret snd]. eapply within_incl; [apply mk_vars_within|apply nameE_domain].
  - intros vars st1 _. apply within_bindM; [apply action_body_within|].
    intros b st2 _. cbn [ret snd]. apply within_bind; [|intros; apply within_Ok].
    eapply within_incl; [apply parse_name_within|apply nameE_domain].
Qed.
Lemma action_def_some l st st' a : action_def l st = (st', Ok a) -> a_pre a <> None /\ a_eff a <> None.
Proof.
  unfold action_def. destruct l as [|[[]|] [|k [|[t|ps] body]]]; try discriminate.
  destruct (is_kw ":parameters" k); [|discriminate]. intros H.
  apply bindM_Ok in H as (st1 & vars & _ & H). apply bindM_Ok in H as (st2 & b & _ & H).
  apply ret_Ok in H as [_ H]. apply bind_Ok in H as (n & _ & H). injection H as <-. cbn. split; discriminate.
Qed.

Lemma check_subtypes_within types l r : within plainE (check_subtypes types l r).
Proof.
  destruct r as [|g r]; [apply within_Ok|]. apply within_iterR. intros x _.
  assert (Q : forall p r', subtype_step types x (g :: r) p = inr r' -> within plainE r').
  { intros p r'. unfold subtype_step. destruct p as [p|]; [|intros [= <-]; apply within_Err; ind].
    destruct (memb String.eqb p (g :: r)); [intros [= <-]; apply within_Ok|].
    destruct types; [discriminate|intros [= <-]; apply within_Err; ind]. }
  unfold check_subtype. cbn [loop].
  destruct (subtype_step types x (g :: r) (Some x)) as [p|r'] eqn:E1; [|eauto].
  destruct (subtype_step types x (g :: r) p) as [p'|r'] eqn:E2; [|eauto].
  destruct (subtype_step types x (g :: r) p') as [p''|r'] eqn:E3; [apply within_Err; ind|eauto].
Qed.
Lemma head_types_within types head : Forall (fun t => exists v, t = TVar v) head -> forall m def,
  within plainE (head_types types m head def).
Proof.
  induction 1 as [|t head (v & ->) F IH]; intros m def; [destruct def; apply within_Ok|].
  destruct def as [|d def]; [apply within_Ok|]. cbn [head_types].
  destruct (v_tags v) eqn:V; [apply IH|]. apply within_bind; [apply check_subtypes_within|intros; apply IH].
Qed.
Lemma skeleton_vars s h : atomic_formula_skeleton s = Ok h -> Forall (fun t => exists v, t = TVar v) (snd h).
Proof.
  destruct s as [|[|[[]|] vs]]; try discriminate. cbn [atomic_formula_skeleton]. intros H.
  apply bind_Ok in H as (tl & _ & H). apply bind_Ok in H as (vars & _ & H). apply bind_Ok in H as (p & P & H).
  apply mk_pred_Ok in P as ->. injection H as <-. cbn [snd]. apply Forall_forall. intros t T.
  apply in_map_iff in T as (v & <- & _). eauto.
Qed.
Lemma derived_callback_within st h c : Forall (fun t => exists v, t = TVar v) (snd h) -> no_effect c ->
  within plainE (derived_callback st h c).
Proof.
  intros V N. unfold derived_callback. destruct (dict_get String.eqb (fst h) (s_predicates st)); [|apply within_Err; ind].
  apply within_bind; [apply within_check; ind|intros _ _].
  apply within_bind; [now apply head_types_within|intros m _].
  apply within_bind; [eapply within_incl; [apply update_within; exact I|apply nameE_plain]|intros p _].
  apply within_bind; [eapply within_incl; [now apply update_within|apply nameE_plain]|intros c' _].
  destruct p; try apply within_Ok; apply within_Err; ind.
Qed.
Lemma derived_def_within l st : within domainE (snd (derived_def l st)).
Proof.
  destruct l as [|h [|x [|]]]; try (apply within_Err; ind). cbn [derived_def].
  apply within_bindM; [eapply within_incl; [apply skeleton_within|apply plain_domain]|intros head st1 H]. apply ret_Ok in H as [-> H].
  apply within_bindM; [cbn [reads snd]; apply gd_within; intros; cx|intros c st2 H2].
  apply reads_Ok in H2 as [-> H2]. cbn [reads snd].
  eapply within_incl; [|apply plain_domain]. apply derived_callback_within; [eapply skeleton_vars; eassumption|eapply gd_no_effect; eassumption].
Qed.
Lemma structure_within s st : within domainE (snd (structure_def s st)).
Proof.
  destruct s as [|[|k body]]; try (apply within_Err; ind). cbn [structure_def].
  destruct (is_kw ":action" k); [apply within_bindM; [apply action_def_within|intros; apply within_Ok]|].
  destruct (is_kw ":derived" k); [apply within_bindM; [apply derived_def_within|intros; apply within_Ok]|].
  apply within_Err; ind.
Qed.
Lemma structure_some s st st' a : structure_def s st = (st', Ok (inl a)) -> a_pre a <> None /\ a_eff a <> None.
Proof.
  destruct s as [|[|k body]]; try discriminate. cbn [structure_def].
  destruct (is_kw ":action" k).
  - intros H. apply bindM_Ok in H as (st1 & a' & H & R). apply ret_Ok in R as [_ [= <-]]. eauto using action_def_some.
  - destruct (is_kw ":derived" k); [|discriminate]. intros H. apply bindM_Ok in H as (st1 & a' & H & R).
    apply ret_Ok in R as [_ [=]].
Qed.

(** ** the checks of the constructors *)
Lemma check_term_within types rs t : within [PDDLValidationError] (check_term types rs t).
Proof. apply within_bind; [apply within_check; ind|intros; apply within_check; ind]. Qed.
Lemma check_terms_within types rs ts : within [PDDLValidationError] (check_terms types rs ts).
Proof. apply within_iterR. intros; apply check_term_within. Qed.
Lemma check_form_within types rs f : within [PDDLValidationError] (check_form types rs f).
Proof.
  assert (V : forall vs, within [PDDLValidationError] (check_vars types rs vs)).
  { intros. apply within_iterR. intros; apply check_term_within. }
  induction f using form_ind'; cbn [check_form]; auto using check_terms_within, within_Ok.
  - apply within_bind; [apply check_term_within|intros; apply check_term_within].
  - apply within_iterR. now apply Forall_forall.
  - apply within_iterR. now apply Forall_forall.
  - apply within_bind; auto.
  - apply within_bind; auto.
  - apply within_bind; auto.
Qed.
Lemma types_dict_within d rs b : within nameE (mk_types d rs b).
Proof.
  apply within_bind.
  - apply within_bind; [|intros; apply within_Ok]. apply within_mapR. intros kv _.
    apply within_bind; [apply parse_type_within|intros k _]. apply within_bind; [|intros; apply within_Ok].
    destruct (snd kv) as [[|]|]; try apply within_Ok. apply within_bind; [apply parse_type_within|intros; apply within_Ok].
  - intros t _. apply within_bind; [|intros; apply within_Ok]. destruct b; [apply within_Ok|].
    unfold check_types_dictionary. destruct t as [|kv t]; [apply within_Ok|].
    destruct (_ && _); [apply within_Err; ind|].
    destruct (dict_get String.eqb "object" (kv :: t)) as [[|]|]; try (apply within_Err; ind);
      (destruct (find_cycle _); [apply within_Err; ind|apply within_Ok]).
Qed.
Lemma one_incl (e : exn) E : In e E -> incl [e] E.
Proof. intros H x [<-|[]]. exact H. Qed.
Lemma consistency_domain_within d : Forall (fun a => a_pre a <> None /\ a_eff a <> None) (d_actions d) ->
  within [PDDLValidationError] (domain_check_consistency d).
Proof.
  intros F. unfold domain_check_consistency.
  apply within_bind; [apply check_terms_within|intros _ _].
  apply within_bind; [apply within_iterR; intros; apply check_terms_within|intros _ _].
  apply within_bind.
  { apply within_iterR. intros a Ha. rewrite Forall_forall in F. destruct (F a Ha) as [P Q].
    apply within_bind; [apply check_terms_within|intros _ _].
    destruct (a_pre a) as [p|]; [|congruence]. destruct (a_eff a) as [e|]; [|congruence].
    apply within_bind; [apply check_form_within|intros; apply check_form_within]. }
  intros _ _. apply within_bind; [apply within_check; ind|intros; apply within_check; ind].
Qed.
Lemma total_cost_within fs rs : within [PDDLValidationError] (check_total_cost fs rs).
Proof.
  unfold check_total_cost. destruct fs; [apply within_Ok|].
  destruct (existsb _ _); [|apply within_check; ind]. apply within_bind; [apply within_check; ind|intros _ _].
  destruct (existsb _ _); [apply within_check; ind|apply within_Ok].
Qed.
Lemma mk_domain_within n rs ty cs ps dps fs acts : Forall (fun a => a_pre a <> None /\ a_eff a <> None) acts ->
  within nameE (mk_domain n rs ty cs ps dps fs acts).
Proof.
  intros F. apply within_bind; [apply parse_name_within|intros n' _]. cbn zeta.
  apply within_bind; [apply types_dict_within|intros ty' _].
  apply within_bind; [eapply within_incl; [apply total_cost_within|apply one_incl; ind]|intros _ _].
  apply within_bind; [|intros; apply within_Ok].
  eapply within_incl; [apply consistency_domain_within|apply one_incl; ind]. cbn [d_actions].
  rewrite Forall_forall in *. intros a Ha. apply F. now apply dedup_In in Ha.
Qed.

Lemma domain_rule_within E n l st : incl domainE E -> s_types st = None \/ In AssertionError E ->
  within E (snd (domain_rule n l st)).
Proof.
  intros I H. unfold domain_rule.
  destruct (section ":requirements" l) as [o1 l1]. apply within_bindM.
  { apply within_optM. intros. eapply within_incl; [apply requirements_within|exact I]. }
  intros rs st1 H1. assert (K : s_types st1 = s_types st).
  { apply optM_Ok in H1. destruct o1 as [k|]; [|now destruct H1 as [-> _]]. destruct H1 as (r & H1 & _).
    apply bindM_Ok in H1 as (s1 & k' & H1 & H2). apply ret_Ok in H1 as [-> _].
    apply bindM_Ok in H2 as (s2 & u & H1 & H2). apply modify_Ok in H1. apply ret_Ok in H2 as [-> _]. now subst. }
  rewrite <- K in H. clear H1 K.
  destruct (section ":types" l1) as [o2 l2]. apply within_bindM.
  { apply within_optM. intros. now apply types_within. }
  intros ty st2 _. destruct (section ":constants" l2) as [o3 l3]. apply within_bindM.
  { apply within_optM. intros. eapply within_incl; [apply constants_section_within|exact (incl_tran plain_domain I)]. }
  intros cs st3 _. destruct (section ":predicates" l3) as [o4 l4]. apply within_bindM.
  { apply within_optM. intros. eapply within_incl; [apply predicates_within|exact (incl_tran plain_domain I)]. }
  intros ps st4 _. destruct (section ":functions" l4) as [o5 l5]. apply within_bindM.
  { apply within_optM. intros. cbn [ret snd]. eapply within_incl; [apply functions_within|exact (incl_tran plain_domain I)]. }
  intros fs st5 _. apply within_bindM.
  { apply within_mapM. intros. eapply within_incl; [apply structure_within|exact I]. }
  intros xs st6 X. cbn zeta. apply within_bindM; [apply within_Ok|]. intros [] st7 _. cbn [ret snd].
  eapply within_incl; [apply mk_domain_within|eapply incl_tran; [apply nameE_domain|exact I]].
  apply Forall_forall. intros a Ha. apply in_flat_map in Ha as ([b|b] & Hx & Ha); [|destruct Ha].
  destruct Ha as [->|[]]. apply mapM_runs in X.
  destruct (runs_In _ (fun _ => True) _ _ _ _ _ X Logic.I (fun _ _ _ _ _ _ _ => Logic.I) Hx) as (x & s & s' & _ & _ & R).
  eapply structure_some; eassumption.
Qed.
Lemma parse_domain_within E s st : incl domainE E -> s_types st = None \/ In AssertionError E ->
  within E (snd (parse_domain s st)).
Proof.
  intros I H. assert (S0 : within E (snd (@ret domain syntax st))) by (apply within_Err, I; ind).
  unfold parse_domain. destruct (read_text s) as [l|]; auto. unfold parse_domain_sexp.
  repeat match goal with |- context [match ?x with _ => _ end] => is_var x; destruct x; auto end.
  destruct (_ && _); auto. now apply domain_rule_within.
Qed.

(** ** the problem parser *)
Definition problemE := [ValueError; PDDLValidationError; PDDLParsingError;
                        PDDLMissingRequirementError EQUALITY; PDDLMissingRequirementError DIS_PRECONDITION;
                        PDDLMissingRequirementError EXISTENTIAL_PRECONDITION;
                        PDDLMissingRequirementError UNIVERSAL_PRECONDITION; LarkSyntaxError].
Ltac inp := cbn [In nameE listE problemE]; tauto.
Lemma nameE_problem : incl nameE problemE.
Proof. intros e. inp. Qed.
Lemma syntax_problem {A} : within problemE (@syntax A).
Proof. apply within_Err; inp. Qed.

Lemma bft_within s : within problemE (basic_function_term s).
Proof.
  destruct s as [[]|[|[[]|] args]]; cbn [basic_function_term]; try apply syntax_problem.
  - eapply within_incl; [apply mk_numfun_within|apply nameE_problem].
  - apply within_bind; [apply within_of_opt; inp|intros ns _]. apply within_bind.
    + eapply within_incl; [apply within_mapR; intros; apply mk_const_within|apply nameE_problem].
    + intros. eapply within_incl; [apply mk_numfun_within|apply nameE_problem].
Qed.
Lemma afn_within objs s : within problemE (atomic_formula_name objs s).
Proof.
  destruct s as [[]|[|[[]|] args]]; cbn [atomic_formula_name]; try apply syntax_problem.
  apply within_bind; [apply within_of_opt; inp|intros ns _]. apply within_bind.
  - apply within_mapR. intros x _. destruct (dict_get String.eqb x objs); [apply within_Ok|].
    eapply within_incl; [apply mk_const_within|apply nameE_problem].
  - intros. eapply within_incl; [apply mk_pred_within|apply nameE_problem].
Qed.
Lemma init_el_within objs s : within problemE (init_el objs s).
Proof.
  destruct s as [|[|[[]|] args]]; cbn [init_el]; try apply syntax_problem.
  - destruct (String.eqb s "not"); [|apply afn_within]. destruct args as [|x [|]]; try apply syntax_problem.
    apply within_bind; [apply afn_within|intros; apply within_Ok].
  - destruct args as [|f [|[[]|] [|]]]; try apply syntax_problem.
    destruct (String.eqb s "="); [|apply syntax_problem].
    apply within_bind; [apply bft_within|intros g _]. apply within_bind; [|intros; apply within_Ok].
    eapply within_incl; [apply num_literal_within|]. intros e. inp.
Qed.
Lemma metric_f_exp_within s : within problemE (metric_f_exp s).
Proof.
  induction s as [t|l IH] using sexp_ind'.
  - destruct t; try apply bft_within. apply within_Ok.
  - destruct l as [|[[]|] args]; try apply bft_within. cbn [metric_f_exp].
    destruct (arith_op s (length args)); [|apply syntax_problem].
    apply within_bind; [|intros; apply within_Ok]. apply within_mapR. inversion IH; subst. now apply Forall_forall.
Qed.
Lemma metric_spec_within l : within problemE (metric_spec l).
Proof.
  destruct l as [|[[]|] [|e [|]]]; try apply syntax_problem. cbn [metric_spec].
  destruct (memb String.eqb s ["maximize"; "minimize"]) eqn:B; [|apply syntax_problem].
  apply within_bind; [apply metric_f_exp_within|intros f _]. unfold mk_metric. rewrite B. apply within_Ok.
Qed.
Lemma objects_within l : within problemE (objects_section l).
Proof.
  apply within_bind; [eapply within_incl; [apply typed_list_name_within|intros e; inp]|].
  intros; eapply within_incl; [apply constants_within|apply nameE_problem].
Qed.
Lemma goal_within s : within problemE (gd problem_ctx s).
Proof.
  apply gd_within.
  - apply nameE_problem.
  - intros r H. cbn [In] in H. decompose [or] H; subst; try contradiction; inp.
  - inp.
  - intros n. cbn. eapply within_incl; [apply mk_const_within|apply nameE_problem].
  - intros l. cbn. apply within_bind; [apply within_of_opt; inp|intros; apply within_Ok].
Qed.
Lemma opt_res_within {A} E (f : list sexp -> res A) o : (forall l, within E (f l)) -> within E (opt_res f o).
Proof. intros H. destruct o; cbn; [|apply within_Ok]. apply within_bind; auto. intros; apply within_Ok. Qed.
Lemma mk_problem_within n dn rs objs init goal m : within nameE (mk_problem n None (Some dn) rs objs init goal m).
Proof.
  apply within_bind; [apply parse_name_within|intros n' _].
  apply within_bind; [cbn; apply within_bind; [apply parse_name_within|intros; apply within_Ok]|intros [d n2] H].
  assert (d = None) as -> by (cbn in H; apply bind_Ok in H as (x & _ & H); now injection H).
  apply within_bind; [destruct rs; apply within_Ok|intros rs' _]. cbn zeta.
  apply within_bind; [apply within_check; inp|intros _ _]. cbn. apply within_Ok.
Qed.
Lemma parse_problem_within objs0 s : within problemE (parse_problem_from objs0 s).
Proof.
  assert (R : forall n dn l, within problemE (problem_rule objs0 n dn l)).
  { intros n dn l. unfold problem_rule. destruct (section ":requirements" l) as [o1 l1].
    apply within_bind; [apply opt_res_within; intros; eapply within_incl; [apply require_keys_within|apply one_incl; inp]|intros rs _].
    destruct (section ":objects" l1) as [o2 l2]. apply within_bind; [apply opt_res_within, objects_within|intros os _].
    destruct (section ":init" l2) as [[inits|] l3]; [|apply syntax_problem].
    apply within_bind; [apply within_mapR; intros; apply init_el_within|intros init _].
    destruct (section ":goal" l3) as [[[|g [|]]|] l4]; try apply syntax_problem.
    apply within_bind; [apply goal_within|intros goal _].
    destruct (section ":metric" l4) as [o5 l5]. apply within_bind; [apply opt_res_within, metric_spec_within|intros m _].
    destruct l5; [|apply syntax_problem]. eapply within_incl; [apply mk_problem_within|apply nameE_problem]. }
  assert (S0 : within problemE (@syntax problem)) by apply syntax_problem.
  unfold parse_problem_from. destruct (read_text s) as [l|]; auto. unfold parse_problem_sexp.
  repeat match goal with |- context [match ?x with _ => _ end] => is_var x; destruct x; auto end.
  destruct (_ && _ && _); auto.
Qed.

(** ** the plan parser: the lexer only gives words that are identifiers *)
Definition word_ok (t : token) : Prop := match t with TWord s => name_regex s = true | _ => True end.
Definition wst_ok (q : lstate) : Prop := match q with QWord s => name_regex s = true | _ => True end.
Lemma all_chars_snoc p c s : all_chars p s = true -> p c = true -> all_chars p (snoc s c) = true.
Proof.
  intros A C. induction s as [|d s IH]; cbn in *; [now rewrite C|].
  apply andb_true_iff in A as [-> A]. exact (IH A).
Qed.
Lemma start_word c : wst_ok (fst (start c)) /\ Forall word_ok (snd (start c)).
Proof.
  unfold start. repeat match goal with |- context [if ?b then _ else _] => destruct b eqn:? end;
    cbn; repeat constructor. rewrite andb_true_r. assumption.
Qed.
Lemma flush_word q : wst_ok q -> Forall word_ok (flush q).
Proof.
  intros H. destruct q; cbn [flush]; repeat constructor; auto.
  unfold kw_token. now destruct (memb String.eqb s colon_keywords).
Qed.
Lemma restart_word q c : wst_ok q -> wst_ok (fst (restart q c)) /\ Forall word_ok (snd (restart q c)).
Proof.
  intros H. unfold restart. pose proof (start_word c) as [S1 S2]. destruct (start c) as [q' ts].
  split; auto. apply Forall_app. split; auto. now apply flush_word.
Qed.
Lemma lstep_word q c : wst_ok q -> wst_ok (fst (lstep q c)) /\ Forall word_ok (snd (lstep q c)).
Proof.
  intros H. destruct q; cbn [lstep].
  - apply start_word.
  - destruct (is_name_char c) eqn:C; [split; [|constructor]|now apply restart_word].
    cbn in *. destruct s as [|d s]; [discriminate|]. cbn in *. apply andb_true_iff in H as [-> H].
    now apply all_chars_snoc.
  - destruct (is_digit c); [split; constructor|].
    destruct (chr 46%N c); [split; constructor|now apply restart_word].
  - destruct (is_digit c); [split; constructor|now apply restart_word].
  - destruct (is_name_char c); [split; constructor|now apply restart_word].
  - destruct (chr 61%N c); [split; repeat constructor|now apply restart_word].
  - destruct (chr 61%N c); [split; repeat constructor|now apply restart_word].
  - destruct (chr 10%N c); split; constructor.
Qed.
Lemma lex_word s : forall q, wst_ok q -> Forall word_ok (lex_from q s).
Proof.
  induction s as [|c r IH]; intros q H; cbn [lex_from]; [now apply flush_word|].
  pose proof (lstep_word q c H) as [A B]. destruct (lstep q c) as [q' ts].
  apply Forall_app. split; [exact B|exact (IH _ A)].
Qed.
Lemma read_text_word s l x n : read_text s = Some l -> In x l -> atom_in (TWord n) x -> name_regex n = true.
Proof.
  intros H I N. assert (F : Forall (atoms_ok word_ok) l).
  { eapply read_from_atoms; [| | |exact H]; [apply lex_word; exact Logic.I|constructor|constructor]. }
  rewrite Forall_forall in F. exact (F x I _ N).
Qed.
Lemma const_word_within n : name_regex n = true -> within [PDDLValidationError] (mk_const n None).
Proof.
  intros H. unfold mk_const, term_init, parse_name, mk_name, check_not_a_keyword. rewrite H.
  destruct (is_a_keyword [] n); cbn; [apply within_Err; ind|apply within_Ok].
Qed.
Lemma mapO_words_In args : forall ns n, mapO word args = Some ns -> In n ns -> In (SAtom (TWord n)) args.
Proof.
  induction args as [|x args IH]; intros ns n H I; cbn in H; [injection H as <-; destruct I|].
  destruct x as [[]|]; cbn in H; try discriminate. destruct (mapO word args) as [ns'|]; [|discriminate].
  injection H as <-. destruct I as [->|I]; [now left|right; eauto].
Qed.
Lemma parse_plan_within s : within [PDDLValidationError; LarkSyntaxError] (parse_plan s).
Proof.
  unfold parse_plan. destruct (read_text s) as [l|] eqn:R; [|apply within_Err; ind]. apply within_mapR. intros x X.
  destruct x as [|[|[[]|] args]]; try (apply within_Err; ind). cbn [ground_action].
  apply within_bind; [apply within_of_opt; ind|intros ns W]. apply within_bind; [|intros; apply within_Ok].
  eapply within_incl; [|apply (one_incl PDDLValidationError); ind].
  apply within_mapR. intros n N. apply const_word_within. eapply read_text_word; [exact R|exact X|].
  eapply AI_list; [|constructor]. right. eapply mapO_words_In; [|exact N].
  destruct (mapO word args); [|discriminate]. now injection W as ->.
Qed.
