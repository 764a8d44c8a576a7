(** More requirements never make a domain unacceptable. *)
From Coq Require Import String List Bool.
From Verif Require Import Py Names Reqs Logic Validation Core Lexer TypedList UpdateTags Parser.
From Verif Require Import Spec Spec_Core Spec_Reqs Spec_Parse Spec_Features Spec_Grow.
From Verif Require Import Py_facts Names_facts Order_facts Logic_facts Validation_facts Core_facts CoreEq_facts GD_facts Domain_facts Feature_facts.
Import ListNotations.
Open Scope string_scope.
Open Scope list_scope.

(** * The constructor *)
Lemma extend_incl rs rs' : incl rs rs' -> incl (extend_reqs rs) (extend_reqs rs').
Proof.
  intros I r H. apply extend_exact in H. apply extend_exact. destruct H as [H|(q & H & J)]; [left; auto|right; eauto].
Qed.
Lemma has_incl rs rs' r : incl rs rs' -> has r rs = true -> has r rs' = true.
Proof. intros I H. apply has_In. apply has_In in H. auto. Qed.
Lemma dedup_incl_req rs rs' : incl rs rs' -> incl (dedup req_eqb rs) (dedup req_eqb rs').
Proof.
  intros I r H. apply has_In. apply has_In in H. unfold has in *. rewrite (memb_dedup _ req_eqb_equiv) in *.
  apply has_In. apply I. apply has_In. exact H.
Qed.

Section Checks.
  Variables (types : types_dict) (rs rs' : list req).
  Hypothesis I : incl rs rs'.

  Lemma has_typing_grow : has_typing rs = true -> has_typing rs' = true.
  Proof. unfold has_typing. apply has_incl, extend_incl, I. Qed.
  Lemma check_term_grow t : check_term types rs t = Ok tt -> check_term types rs' t = Ok tt.
  Proof.
    unfold check_term. intros H. apply bind_Ok in H as ([] & H1 & H2). apply check_Ok in H1. rewrite H2.
    apply orb_prop in H1. assert (E : has_typing rs' || Nat.eqb (length (t_tags t)) 0 = true).
    { destruct H1 as [H1|H1]; [rewrite (has_typing_grow H1); reflexivity|rewrite H1; apply orb_true_r]. }
    rewrite E. reflexivity.
  Qed.
  Lemma iterR_grow {A} (f g : A -> res unit) l : Forall (fun x => f x = Ok tt -> g x = Ok tt) l ->
    iterR f l = Ok tt -> iterR g l = Ok tt.
  Proof.
    rewrite !iterR_Ok, !Forall_forall. intros F H x X. auto.
  Qed.
  Lemma check_terms_grow ts : check_terms types rs ts = Ok tt -> check_terms types rs' ts = Ok tt.
  Proof. apply iterR_grow. apply Forall_forall. intros t _. apply check_term_grow. Qed.
  Lemma check_vars_grow vs : check_vars types rs vs = Ok tt -> check_vars types rs' vs = Ok tt.
  Proof. apply iterR_grow. apply Forall_forall. intros t _. apply check_term_grow. Qed.
  Lemma check_form_grow f : check_form types rs f = Ok tt -> check_form types rs' f = Ok tt.
  Proof.
    induction f as [n ts|l r|n ts|v|k ops IH|k ops IH|f IH|q vs c IH|c e IHc IHe|vs e IH] using form_ind';
      cbn [check_form]; try exact (fun H => H); try apply check_terms_grow; try (apply iterR_grow; exact IH); try exact IH;
      intros H; apply bind_Ok in H as ([] & H1 & H2).
    - rewrite (check_term_grow _ H1). exact (check_term_grow _ H2).
    - rewrite (check_vars_grow _ H1). exact (IH H2).
    - rewrite (IHc H1). exact (IHe H2).
    - rewrite (check_vars_grow _ H1). exact (IH H2).
  Qed.
  Lemma check_opt_grow o : check_opt types rs o = Ok tt -> check_opt types rs' o = Ok tt.
  Proof. destruct o; cbn [check_opt]; [apply check_form_grow|discriminate]. Qed.
  Lemma check_action_grow a : check_action types rs a = Ok tt -> check_action types rs' a = Ok tt.
  Proof.
    unfold check_action. intros H. apply bind_Ok in H as ([] & H1 & H). apply bind_Ok in H as ([] & H2 & H3).
    rewrite (check_terms_grow _ H1), (check_opt_grow _ H2). exact (check_opt_grow _ H3).
  Qed.
  Lemma check_types_dictionary_grow d : check_types_dictionary d rs = Ok tt -> check_types_dictionary d rs' = Ok tt.
  Proof.
    unfold check_types_dictionary. destruct d as [|x d]; [auto|].
    match goal with |- context [negb (Nat.eqb ?n 0)] => destruct (negb (Nat.eqb n 0)) end; cbn [andb]; [|auto].
    destruct (has TYPING rs) eqn:E; cbn [negb]; [|discriminate]. rewrite (has_incl _ _ _ I E). cbn [negb]. auto.
  Qed.
  Lemma mk_types_grow d t : mk_types d rs false = Ok t -> mk_types d rs' false = Ok t.
  Proof.
    unfold mk_types. intros H. apply bind_Ok in H as (t0 & E & H). apply bind_Ok in H as ([] & C & H).
    rewrite E. cbn [bind]. rewrite (check_types_dictionary_grow _ C). exact H.
  Qed.
  Lemma check_total_cost_grow d : check_total_cost d rs = Ok tt -> check_total_cost d rs' = Ok tt.
  Proof.
    unfold check_total_cost. destruct d as [|x d]; [auto|].
    match goal with |- context [if existsb ?f ?l then _ ;; _ else _] => destruct (existsb f l) end.
    - intros H. apply bind_Ok in H as ([] & H1 & H2). apply check_Ok in H1. rewrite (has_incl _ _ _ I H1). cbn [check bind].
      match goal with |- context [existsb ?f ?l] => destruct (existsb f l) end; [|exact H2].
      apply check_Ok in H2. apply check_Ok. exact (has_incl _ _ _ (extend_incl _ _ I) H2).
    - intros H. apply check_Ok in H. apply check_Ok. exact (has_incl _ _ _ (extend_incl _ _ I) H).
  Qed.
End Checks.

Lemma mk_domain_grow n rs rs' ty cs ps dps fs acts d : incl rs rs' ->
  mk_domain n rs ty cs ps dps fs acts = Ok d ->
  exists d', mk_domain n rs' ty cs ps dps fs acts = Ok d' /\ d_reqs d' = dedup req_eqb rs' /\ same_but_requirements d d'.
Proof.
  intros I H. pose proof (dedup_incl_req _ _ I) as I'. unfold mk_domain in H.
  apply bind_Ok in H as (n' & N & H). apply bind_Ok in H as (ty' & T & H). apply bind_Ok in H as ([] & C & H).
  apply bind_Ok in H as ([] & K & H). injection H as <-.
  unfold mk_domain. rewrite N. cbn [bind]. rewrite (mk_types_grow _ _ I' _ _ T). cbn [bind].
  rewrite (check_total_cost_grow _ _ I' _ C). cbn [bind].
  unfold domain_check_consistency in *. cbn [d_types d_reqs d_constants d_predicates d_actions d_derived] in *.
  apply bind_Ok in K as ([] & K1 & K). apply bind_Ok in K as ([] & K2 & K). apply bind_Ok in K as ([] & K3 & K).
  apply bind_Ok in K as ([] & K4 & K5).
  rewrite (check_terms_grow _ _ _ I' _ K1). cbn [bind].
  assert (E2 : iterR (fun p => check_terms ty' (dedup req_eqb rs') (snd p)) (dedup atom_eqb ps) = Ok tt).
  { revert K2. apply iterR_grow. apply Forall_forall. intros p _. apply check_terms_grow, I'. }
  assert (E3 : iterR (check_action ty' (dedup req_eqb rs')) (dedup action_eqb acts) = Ok tt).
  { revert K3. apply iterR_grow. apply Forall_forall. intros p _. apply check_action_grow, I'. }
  rewrite E2. cbn [bind]. rewrite E3. cbn [bind]. rewrite K4. cbn [bind]. rewrite K5. cbn [bind].
  eexists. split; [reflexivity|]. split; [reflexivity|]. repeat split.
Qed.

(** * The text *)
Definition keeps {A} (e : list req) (m : M A) (st : dstate) : Prop :=
  incl (s_ext st) e -> forall st' a, m st = (st', Ok a) ->
    s_ext st' = s_ext st /\ m (set_ext e st) = (set_ext e st', Ok a).

Lemma keeps_ret {A} e (r : res A) st : keeps e (ret r) st.
Proof. intros _ st' a H. apply ret_Ok in H as [-> ->]. split; reflexivity. Qed.
Lemma keeps_bind {A B} e (m : M A) (k : A -> M B) st :
  keeps e m st -> (forall st1 a, m st = (st1, Ok a) -> keeps e (k a) st1) -> keeps e (bindM m k) st.
Proof.
  intros Hm Hk L st' b H. apply bindM_Ok in H as (st1 & a & Ha & Hb). destruct (Hm L _ _ Ha) as [E1 R1].
  assert (L1 : incl (s_ext st1) e) by (rewrite E1; exact L). destruct (Hk _ _ Ha L1 _ _ Hb) as [E2 R2].
  split; [congruence|]. unfold bindM. rewrite R1. exact R2.
Qed.
Lemma keeps_reads {A} e (f : dstate -> res A) st :
  (incl (s_ext st) e -> forall a, f st = Ok a -> f (set_ext e st) = Ok a) -> keeps e (reads f) st.
Proof. intros Hf L st' a H. apply reads_Ok in H as [-> H]. split; [reflexivity|]. unfold reads. rewrite (Hf L _ H). reflexivity. Qed.
Lemma keeps_modify e f st : f (set_ext e st) = set_ext e (f st) -> s_ext (f st) = s_ext st -> keeps e (modify f) st.
Proof. intros E X _ st' a H. unfold modify in *. injection H as <- <-. split; [exact X|]. now rewrite E. Qed.
Lemma keeps_optM {A} e (f : list sexp -> M A) o st : (forall l, keeps e (f l) st) -> keeps e (optM f o) st.
Proof.
  intros H. destruct o; cbn [optM]; [|apply keeps_ret]. apply keeps_bind; auto. intros. apply keeps_ret.
Qed.
Lemma keeps_mapM {A B} e (f : A -> M B) l : (forall x st, keeps e (f x) st) -> forall st, keeps e (mapM f l) st.
Proof.
  intros H. induction l as [|x l IH]; intros st; cbn [mapM]; [apply keeps_ret|].
  apply keeps_bind; auto. intros. apply keeps_bind; auto. intros. apply keeps_ret.
Qed.

Lemma gd_grow e st x f : incl (s_ext st) e -> gd (domain_ctx st) x = Ok f -> gd (domain_ctx (set_ext e st)) x = Ok f.
Proof.
  intros L H. destruct (gd_verdict (domain_ctx (set_ext e st)) (s_ext st) x f H) as [E|(q & rs & _ & N & U)]; [exact E|].
  exfalso. apply U. destruct (gd_provided (domain_ctx st) x (q :: rs) N f H) as (r & R1 & R2). exists r. split; [exact R1|].
  cbn [domain_ctx g_ext set_ext s_ext] in *. auto.
Qed.
Lemma effect_grow e st t x f : incl (s_ext st) e -> effect (domain_ctx st) t x = Ok f ->
  effect (domain_ctx (set_ext e st)) t x = Ok f.
Proof.
  intros L H. destruct (effect_verdict (domain_ctx (set_ext e st)) (s_ext st) x t f H) as [E|(q & rs & _ & N & U)]; [exact E|].
  exfalso. apply U. destruct (effect_needs (domain_ctx st) x (q :: rs) N t f H) as (r & R1 & R2). exists r. split; [exact R1|].
  cbn [domain_ctx g_ext set_ext s_ext] in *. auto.
Qed.
Lemma emptyor_pregd_grow e st x f : incl (s_ext st) e -> emptyor_pregd (domain_ctx st) x = Ok f ->
  emptyor_pregd (domain_ctx (set_ext e st)) x = Ok f.
Proof. destruct x as [|[|]]; cbn [emptyor_pregd]; auto using gd_grow. Qed.
Lemma emptyor_effect_grow e st x f : incl (s_ext st) e -> emptyor_effect (domain_ctx st) x = Ok f ->
  emptyor_effect (domain_ctx (set_ext e st)) x = Ok f.
Proof. destruct x as [|[|]]; cbn [emptyor_effect]; auto using effect_grow. Qed.
Lemma action_body_grow e st l b : incl (s_ext st) e -> action_body l st = Ok b -> action_body l (set_ext e st) = Ok b.
Proof.
  intros L. unfold action_body. destruct l as [|k1 [|x [|k2 [|y [|]]]]]; try discriminate.
  - destruct (is_kw ":precondition" k1).
    + intros H. apply bind_Ok in H as (? & _ & H). discriminate.
    + destruct (is_kw ":effect" k1); [|discriminate].
      intros H. apply bind_Ok in H as (? & _ & H). discriminate.
  - destruct (is_kw ":precondition" k1 && is_kw ":effect" k2); [|discriminate].
    intros H. apply bind_Ok in H as (p & P & H). apply bind_Ok in H as (f & F & H).
    rewrite (emptyor_pregd_grow _ _ _ _ L P). cbn [bind]. rewrite (emptyor_effect_grow _ _ _ _ L F). exact H.
Qed.
Lemma structure_grow e x st : keeps e (structure_def x) st.
Proof.
  unfold structure_def. destruct x as [|[|k body]]; try apply keeps_ret.
  destruct (is_kw ":action" k).
  - apply keeps_bind; [|intros; apply keeps_ret]. unfold action_def.
    destruct body as [|[[]|] [|k' [|[|ps] body]]]; try apply keeps_ret.
    destruct (is_kw ":parameters" k'); [|apply keeps_ret].
    apply keeps_bind.
    + unfold action_parameters. apply keeps_bind; [apply keeps_ret|]. intros. apply keeps_bind; [apply keeps_ret|].
      intros. apply keeps_bind; [now apply keeps_modify|]. intros. apply keeps_ret.
    + intros. apply keeps_bind; [|intros; apply keeps_ret]. apply keeps_reads. intros L b B.
      now apply action_body_grow.
  - destruct (is_kw ":derived" k); [|apply keeps_ret].
    apply keeps_bind; [|intros; apply keeps_ret]. unfold derived_def.
    destruct body as [|h [|x [|]]]; try apply keeps_ret.
    apply keeps_bind; [apply keeps_ret|]. intros. apply keeps_bind.
    + apply keeps_reads. intros L b B. now apply gd_grow.
    + intros. apply keeps_reads. intros _ b H'. exact H'.
Qed.
Lemma types_grow e l st : keeps e (types_section l) st.
Proof.
  unfold types_section. apply keeps_bind; [apply keeps_ret|]. intros.
  apply keeps_bind; [|intros; apply keeps_bind].
  - apply keeps_reads. intros L [] C. cbn [set_ext s_ext] in *. apply check_Ok in C. apply check_Ok.
    apply orb_prop in C. destruct C as [C|C]; [rewrite C; reflexivity|]. rewrite (has_incl _ _ _ L C). apply orb_true_r.
  - apply keeps_reads. intros _ b H'. exact H'.
  - intros. apply keeps_bind; [now apply keeps_modify|]. intros. apply keeps_ret.
Qed.

(** everything between the requirements section and the constructor *)
Definition middle (l1 : list sexp) : M (option types_dict * list const * list atom * list derived * functions_dict * list action) :=
  let '(o2, l2) := section ":types" l1 in
  do ty <- optM types_section o2;
  let '(o3, l3) := section ":constants" l2 in
  do cs <- optM constants_section o3;
  let '(o4, l4) := section ":predicates" l3 in
  do ps <- optM predicates_section o4;
  let '(o5, l5) := section ":functions" l4 in
  do fs <- optM (fun l => ret (functions_section l)) o5;
  do xs <- mapM structure_def l5;
  let acts := flat_map (fun x => match x with inl a => [a] | inr _ => [] end) xs in
  let dps := flat_map (fun x => match x with inl _ => [] | inr d => [d] end) xs in
  do _ <- modify (set_types None);
  ret (Ok (ty, opt_list cs, opt_list ps, dps, opt_list fs, acts)).

Lemma middle_grow e l1 st : keeps e (middle l1) st.
Proof.
  unfold middle. destruct (section ":types" l1) as [o2 l2].
  apply keeps_bind; [apply keeps_optM; intros; apply types_grow|]. intros.
  destruct (section ":constants" l2) as [o3 l3].
  apply keeps_bind.
  { apply keeps_optM. intros. unfold constants_section. apply keeps_bind; [apply keeps_ret|]. intros.
    apply keeps_bind; [apply keeps_ret|]. intros. apply keeps_bind; [now apply keeps_modify|].
    intros. apply keeps_ret. }
  intros. destruct (section ":predicates" l3) as [o4 l4].
  apply keeps_bind.
  { apply keeps_optM. intros. unfold predicates_section. apply keeps_bind; [apply keeps_ret|]. intros.
    apply keeps_bind; [now apply keeps_modify|]. intros. apply keeps_ret. }
  intros. destruct (section ":functions" l4) as [o5 l5].
  apply keeps_bind; [apply keeps_optM; intros; apply keeps_ret|].
  intros. apply keeps_bind; [apply keeps_mapM, structure_grow|]. intros. apply keeps_bind; [now apply keeps_modify|].
  intros. apply keeps_ret.
Qed.

Lemma domain_rule_middle n l0 st o1 l1 st1 rs : section ":requirements" l0 = (o1, l1) ->
  optM requirements o1 st = (st1, Ok rs) ->
  domain_rule n l0 st
  = bindM (middle l1) (fun r => let '(ty, cs, ps, dps, fs, acts) := r in ret (mk_domain n (opt_list rs) ty cs ps dps fs acts)) st1.
Proof.
  intros S1 H1. unfold domain_rule, middle. rewrite S1.
  destruct (section ":types" l1) as [o2 l2].
  destruct (section ":constants" l2) as [o3 l3].
  destruct (section ":predicates" l3) as [o4 l4].
  destruct (section ":functions" l4) as [o5 l5].
  unfold bindM. rewrite H1.
  destruct (optM types_section o2 st1) as [st2 [ty|]]; [|reflexivity].
  destruct (optM constants_section o3 st2) as [st3 [cs|]]; [|reflexivity].
  destruct (optM predicates_section o4 st3) as [st4 [ps|]]; [|reflexivity].
  destruct (optM (fun l => ret (functions_section l)) o5 st4) as [st5 [fs|]]; [|reflexivity].
  destruct (mapM structure_def l5 st5) as [st6 [xs|]]; reflexivity.
Qed.

Lemma parse_domain_grow s s' n rq rq' rest d : other_sections rest -> ~ In OBJECT_FLUENTS rq' -> incl rq rq' ->
  domain_text s n (declared_sx rq ++ rest) -> domain_text s' n (declared_sx rq' ++ rest) ->
  parse_domain_fresh s = Ok d ->
  exists d', parse_domain_fresh s' = Ok d' /\ (forall r, In r (d_reqs d') <-> In r rq') /\ same_but_requirements d d'.
Proof.
  intros O N' I T T' P. assert (N : ~ In OBJECT_FLUENTS rq) by auto. unfold parse_domain_fresh in *.
  rewrite (parse_domain_rule _ _ _ _ T) in P. rewrite (parse_domain_rule _ _ _ _ T').
  rewrite (domain_rule_middle _ _ _ _ _ _ _ (section_declared rq rest O) (declared_run rq init_dstate N eq_refl)) in P.
  rewrite (domain_rule_middle _ _ _ _ _ _ _ (section_declared rq' rest O) (declared_run rq' init_dstate N' eq_refl)).
  destruct (bindM _ _ (set_ext (extend_reqs rq) init_dstate)) as [stf r] eqn:E in P. cbn [snd] in P. subst r.
  apply bindM_Ok in E as (st2 & [[[[[ty cs] ps] dps] fs] acts] & H2 & H3).
  apply ret_Ok in H3 as [-> H3].
  destruct (middle_grow (extend_reqs rq') rest (set_ext (extend_reqs rq) init_dstate) (extend_incl _ _ I) _ _ H2) as [_ H2'].
  change (set_ext (extend_reqs rq') (set_ext (extend_reqs rq) init_dstate)) with (set_ext (extend_reqs rq') init_dstate) in H2'.
  unfold bindM. rewrite H2'. cbn [snd ret].
  set (q := opt_list (match rq with [] => None | _ => Some (dedup req_eqb rq) end)) in *.
  set (q' := opt_list (match rq' with [] => None | _ => Some (dedup req_eqb rq') end)) in *.
  assert (Q : forall l r, In r (opt_list (match l with [] => None | _ => Some (dedup req_eqb l) end)) <-> In r l).
  { intros l r. destruct l as [|x l]; [reflexivity|]. cbn [opt_list]. rewrite <- !has_In. unfold has. now rewrite (memb_dedup _ req_eqb_equiv). }
  assert (IQ : incl q q').
  { intros r H. apply (proj2 (Q rq' r)). apply I. exact (proj1 (Q rq r) H). }
  destruct (mk_domain_grow _ _ _ _ _ _ _ _ _ _ IQ H3) as (d' & D & R & S).
  exists d'. split; [exact D|]. split; [|exact S]. intros r. rewrite R. rewrite <- (Q rq' r). rewrite <- !has_In. unfold has.
  now rewrite (memb_dedup _ req_eqb_equiv).
Qed.

(** * Problems and plans of the domain *)
Lemma problem_check_grow' p p' d d' : same_but_requirements d d' -> incl (d_reqs d) (d_reqs d') ->
  p_objects p' = p_objects p -> p_init p' = p_init p -> p_goal p' = p_goal p -> get_domain_name p' = get_domain_name p ->
  match p_reqs p' with None => true | Some rs => subset req_eqb rs (d_reqs d') end = true ->
  problem_check p d = Ok tt -> problem_check p' d' = Ok tt.
Proof.
  intros (E1 & E2 & _) I P1 P2 P3 P4 X H. unfold problem_check in *. rewrite E1, E2, P1, P2, P3, P4, X.
  apply bind_Ok in H as ([] & H1 & H). apply bind_Ok in H as ([] & _ & H). apply bind_Ok in H as (ty & H3 & H).
  apply bind_Ok in H as ([] & H4 & H). apply bind_Ok in H as ([] & H5 & H6).
  rewrite H1. cbn [check bind].
  assert (T : mk_types (Some (d_types d)) (d_reqs d') true = Ok ty) by exact H3.
  rewrite T. cbn [bind]. rewrite (check_terms_grow _ _ _ I _ H4). cbn [bind].
  assert (Y : iterR (check_form ty (d_reqs d')) (p_init p) = Ok tt).
  { revert H5. apply iterR_grow. apply Forall_forall. intros f _. apply check_form_grow, I. }
  rewrite Y. cbn [bind]. exact (check_form_grow _ _ _ I _ H6).
Qed.
Lemma problem_check_grow p d d' : same_but_requirements d d' -> incl (d_reqs d) (d_reqs d') ->
  problem_check p d = Ok tt -> problem_check p d' = Ok tt.
Proof.
  intros SB I H. apply (problem_check_grow' p p d d'); auto.
  unfold problem_check in H. apply bind_Ok in H as ([] & _ & H). apply bind_Ok in H as ([] & H2 & _). apply check_Ok in H2.
  destruct (p_reqs p) as [rs|]; [|reflexivity]. unfold subset in *. rewrite forallb_forall in *.
  intros r Hr. apply (has_incl _ _ _ I). exact (H2 r Hr).
Qed.
Lemma plan_check_grow pl p d d' : same_but_requirements d d' -> plan_check pl d' p = plan_check pl d p.
Proof.
  intros (_ & _ & E3 & _ & _ & _ & E7). unfold plan_check, plan_check_step, name_to_schema. rewrite E3, E7. reflexivity.
Qed.

Lemma mk_domain_grow_reqs n rs rs' ty cs ps dps fs acts d : incl rs rs' ->
  mk_domain n rs ty cs ps dps fs acts = Ok d ->
  exists d', mk_domain n rs' ty cs ps dps fs acts = Ok d' /\ (forall r, In r (d_reqs d') <-> In r rs') /\ same_but_requirements d d'.
Proof.
  intros I H. destruct (mk_domain_grow _ _ _ _ _ _ _ _ _ _ I H) as (d' & D & R & S). exists d'. split; [exact D|]. split; [|exact S].
  intros r. rewrite R, <- !has_In. unfold has. now rewrite (memb_dedup _ req_eqb_equiv).
Qed.
Lemma subset_refl_req rs : subset req_eqb rs rs = true.
Proof. unfold subset. apply forallb_forall. intros r H. apply has_In. exact H. Qed.
Lemma mk_problem_grow n d d' objects init goal metric p :
  same_but_requirements d d' -> incl (d_reqs d) (d_reqs d') ->
  mk_problem n (Some d) None None objects init goal metric = Ok p ->
  exists p', mk_problem n (Some d') None None objects init goal metric = Ok p' /\
             p_objects p' = p_objects p /\ p_init p' = p_init p /\ p_goal p' = p_goal p /\ p_metric p' = p_metric p.
Proof.
  intros SB I H. unfold mk_problem in *. apply bind_Ok in H as (n' & N & H). rewrite N.
  cbn [bind parse_domain_and_name parse_requirements fst snd] in *.
  apply bind_Ok in H as ([] & L & H). rewrite L. cbn [bind]. apply bind_Ok in H as ([] & K & H). injection H as <-.
  unfold problem_check_consistency in *. cbn [p_domain] in *.
  match goal with |- context [problem_check ?q d'] => assert (X : problem_check q d' = Ok tt) end.
  { revert K. apply problem_check_grow'; try reflexivity; auto.
    - destruct SB as (E1 & _). exact E1.
    - apply subset_refl_req. }
  rewrite X. eexists. split; [reflexivity|]. repeat split.
Qed.
