(** What the trees of problems and plans are worth: what Parser.v computes. *)
From Coq Require Import String Ascii List Bool NArith Arith Lia.
From Verif Require Import Py Names Reqs Logic Validation Core Lexer TypedList UpdateTags Parser Py_facts Names_facts Lex_facts
     GD_facts Spec_Grammar Words_facts Grammar_facts GrammarText_facts GrammarAll_facts Lark Spec_Lark LarkMain_facts Callbacks CallTree_facts CallForm_facts CallLists_facts CallEffect_facts CallDomain_facts CallDomain2_facts.
Import ListNotations.
Open Scope string_scope.
Open Scope list_scope.

Notation PV := (visit VTok VNone (call problem_callback)).
Notation PVS := (visits problem_callback).
Definition objs : Type := list (string * const).
Definition pctx : objs -> gctx := fun _ => problem_ctx.

Lemma p_constant n st : problem_callback "constant" [VTok n] st = (st, let* t := g_const (pctx st) n in Ok (VTerm t)).
Proof. reflexivity. Qed.
Lemma p_vars p w nx : TT (N "typed_list_variable") [p] w nx -> exists l, sxl w l /\ forall st, exists r, PV p st = (st, r) /\
    match g_vars (pctx st) l with Ok tl => exists v, r = Ok v /\ (v = VVars tl \/ g_ext (pctx st) = []) | Err e => r = Err e end.
Proof.
  intros H. apply unread_list with (callback := problem_callback) in H as (l & S1 & (ts & E) & V1); try reflexivity. exists l. split; [exact S1|]. intros st. destruct (V1 st) as (v & Ev). exists (Ok v). split; [exact Ev|].
  cbn [pctx problem_ctx g_vars]. rewrite E. cbn [of_opt bind]. exists v. auto.
Qed.
Lemma p_gd p w nx : TT (N "gd") [p] w nx -> exists s, sx w s /\ (forall st, PV p st = (st, vf (gd problem_ctx s))) /\ exists x l, s = SList (x :: l).
Proof. apply (gd_tree problem_callback pctx); try reflexivity; apply p_vars. Qed.

(** * Names in a group *)
Lemma strs_back {B} (f : string -> res B) xs : mapR (fun v => let* x := as_str v in f x) (map VTok xs) = mapR f xs.
Proof. induction xs as [|x xs IH]; [reflexivity|]. cbn [map mapR as_str bind]. now rewrite IH. Qed.
Lemma not_one {A} (a b : A) l c : Nat.eqb (length (a :: b :: l ++ [c])) 1 = false.
Proof. reflexivity. Qed.
Lemma function_tree p w nx : TT (N "basic_function_term") [p] w nx -> exists s, sx w s /\ (forall st, PV p st = (st, vf (basic_function_term s))) /\
  ((exists n, s = SAtom (TWord n)) \/ (exists n l, s = SList (SAtom (TWord n) :: l))).
Proof.
  intros H. trule H. inversion Ec; subst. talt H.
  - tword H. subst. exists (SAtom (TWord x)). split; [split; [reflexivity|good1]|]. split; [|eauto]. intros st. rewrite visit_node. cbn [visits]. rewrite V_leaf. cbn beta iota. rewrite call_plain by reflexivity. reflexivity.
  - tseq H. subst. rewrite app_nil_r. cbn [app]. apply t_star in K. apply names_tree in K as (xs & -> & S1). exists (SList (SAtom (TWord x) :: ws xs)). split; [sxs|]. split; [|eauto].
    intros st. rewrite visit_node, (group_visits problem_callback "(" (PLeaf x) _ ")" st _ _ eq_refl (leaves_visits problem_callback xs st)). cbn [bind]. rewrite call_plain by reflexivity.
    change (problem_callback "basic_function_term") with (fun args => pure (St := objs) (pb_basic_function_term args)). unfold pure, pb_basic_function_term. rewrite not_one, inner_list, strs_back.
    cbn [basic_function_term arg nth_error bind as_str]. rewrite ws_word. cbn [of_opt bind]. destruct (mapR _ xs) as [ts|e]; [|reflexivity]. cbn [bind]. destruct (mk_numfun x ts); reflexivity.
Qed.
Lemma function_shape s f : basic_function_term s = Ok f -> exists n ts, f = FNumFun n ts.
Proof.
  intros H. destruct s as [[]|[|[[]|] l]]; cbn [basic_function_term] in H; try discriminate; [eapply mk_numfun_shape; eassumption|..]. do 2 (apply bind_Ok in H as (? & ? & H)). eapply mk_numfun_shape; eassumption.
Qed.
Definition atom_name (objs : objs) (n : string) (args : list sexp) : res form := atomic_formula_name objs (SList (SAtom (TWord n) :: args)).
Lemma named_tree nm pn t p w nx : rules_of nm = [(nm, Seq [L; N pn; Star (T "NAME"); R], [])] -> rules_of pn = [(pn, T t, [])] ->
  base nm = "atomic_formula_name" -> base pn = "predicate" -> base t = "NAME" -> dropped t = false -> TT (N nm) [p] w nx ->
  exists n args, sx w (SList (SAtom (TWord n) :: args)) /\ ~ In n (taken t) /\ forall st, PV p st = (st, vf (atom_name st n args)).
Proof.
  intros R1 R2 B1 B2 B3 Dr H. apply (t_rule _ _ _ _ _ _ R1) in H as (cs & E & _ & H). rewrite B1 in E. inversion E; subst. tseq H; subst.
  apply (t_rule _ _ _ _ _ _ R2) in K as (cs & -> & _ & K). rewrite B2. apply (t_name _ _ _ _ B3 Dr) in K as (x & -> & -> & M & NT).
  rewrite app_nil_r. cbn [app]. apply t_star in K0. apply names_tree in K0 as (xs & -> & S1). exists x, (ws xs). split; [sxs|]. split; [exact NT|].
  intros st. rewrite visit_node, (group_visits problem_callback "(" _ _ ")" st _ _ (V_inl problem_callback "predicate" (PLeaf x) st _ eq_refl eq_refl) (leaves_visits problem_callback xs st)). cbn [bind]. rewrite call_plain by reflexivity.
  change (problem_callback "atomic_formula_name") with (fun args st => pure (St := objs) (pb_atomic_formula_name st args) st). unfold pure, pb_atomic_formula_name. cbn [arg nth_error bind tok_is].
  rewrite (name_not_op x "=" M) by (cbn; tauto). rewrite inner_list, strs_back. unfold atom_name. cbn [atomic_formula_name as_str bind]. rewrite ws_word. cbn [of_opt bind].
  destruct (mapR _ xs) as [ts|e]; [|reflexivity]. cbn [bind]. destruct (mk_pred x ts); reflexivity.
Qed.
Lemma init_tree p w nx : TT (N "init_el") [p] w nx -> exists s, sx w s /\ forall st, PV p st = (st, vf (init_el st s)).
Proof.
  intros H. trule H. inversion Ec; subst. talt H.
  - trule H. subst. talt H.
    + trule1 H. apply (named_tree "atomic_formula_name@init" "predicate@init" "NAME@init") in H as (n & args & S1 & NT & V1); try reflexivity. eexists. split; [exact S1|].
      intros st. rewrite visit_node. cbn [visits]. rewrite visit_node. cbn [visits]. rewrite V1. unfold init_el. replace (String.eqb n "not") with false by (symmetry; apply String.eqb_neq; intros ->; apply NT; cbn; auto).
      unfold atom_name. destruct (atomic_formula_name st _); reflexivity.
    + tseq H. subst. trule1 K. apply (named_tree "atomic_formula_name" "predicate" "NAME") in K as (n & args & S1 & _ & V1); try reflexivity.
      eexists (SList [SAtom (TWord "not"); SList (SAtom (TWord n) :: args)]). split; [sxs|].
      intros st. rewrite visit_node. cbn [visits]. rewrite visit_node. cbn [app visits]. rewrite !V_leaf, V1. cbn [init_el String.eqb Ascii.eqb Bool.eqb]. unfold atom_name. destruct (atomic_formula_name st _); reflexivity.
  - tseq H. subst. trule1 K. trule1 K0. apply function_tree in K as (s & S1 & V1 & _). apply (num_tree problem_callback) in K0 as (n & En & -> & Nn & Vn); [|reflexivity..].
    exists (SList [SAtom (TOp "="); s; SAtom (TNum n)]). split; [sxs|]. intros st. rewrite visit_node. cbn [app visits]. rewrite !V_leaf, V1. cbn [init_el String.eqb Ascii.eqb Bool.eqb].
    destruct (basic_function_term s) as [f|e]; [|reflexivity]. cbn [vf bind]. rewrite Vn. destruct (num_literal n) as [v|e]; reflexivity.
Qed.
(** * Metrics *)
Lemma metric_tree p : forall w nx, TT (N "metric_f_exp") [p] w nx -> exists s, sx w s /\ forall st, PV p st = (st, vf (metric_f_exp s)).
Proof.
  induction p as [x|n cs IH|] using ptree_ind'; intros w nx H; trule H; inversion Ec; subst.
  assert (HE : forall args st, call problem_callback "metric_f_exp" args st = (st, cb_f_exp args)) by (intros; now rewrite call_plain).
  pose proof (arith_tree problem_callback "metric_f_exp" (fun st => metric_f_exp) eq_refl HE (fun _ _ _ => eq_refl)) as AR. clear Ec Al.
  talt H.
  - eapply AR in H as (l & S1 & V1); [|left; reflexivity|exact IH]. eauto.
  - eapply AR in H as (l & S1 & V1); [|right; left; reflexivity|exact IH]. eauto.
  - eapply AR in H as (l & S1 & V1); [|right; right; left; reflexivity|exact IH]. eauto.
  - trule1 H. apply function_tree in H as (s & S1 & V1 & Sh). exists s. split; [exact S1|]. intros st. rewrite visit_node. cbn [visits]. rewrite V1.
    replace (metric_f_exp s) with (basic_function_term s) by (destruct Sh as [(m & ->)|(m & l & ->)]; reflexivity).
    destruct (basic_function_term s) as [f|e] eqn:Ef; [|reflexivity]. cbn [vf bind]. rewrite HE. apply function_shape in Ef as (m & ts & ->). reflexivity.
  - tword H. subst. exists (SAtom (TNum x)). split; [split; [reflexivity|good1]|]. reflexivity.
Qed.
Definition liftP {A} (g : A -> value) (r : res A) : res value := let* a := r in Ok (g a).
Lemma spec_tree p w nx : TT (N "metric_spec") [p] w nx -> exists body, sx w (SList (SAtom (TKw ":metric") :: body)) /\
  forall st, PV p st = (st, liftP (fun m => VKw "metric" (VMetric m)) (metric_spec body)).
Proof.
  intros H. trule H. inversion Ec; subst. tseq H. subst. trule1 K0. apply metric_tree in K0 as (s & S1 & V1).
  assert (X : exists o t, c1 = [PNode "optimization" [PLeaf o]] /\ u1 = [(t, o)] /\ good (SAtom (TWord o)) /\ In o ["maximize"; "minimize"]).
  { trule K. subst. talt K; tword K; subst; repeat eexists; try (cbn; tauto); good1. }
  destruct X as (o & t & -> & -> & G & Io). exists [SAtom (TWord o); s]. split; [sxs|]. intros st. rewrite visit_node. cbn [app visits]. rewrite !V_leaf, (V_inl problem_callback "optimization" (PLeaf o) st _ eq_refl eq_refl), V1.
  unfold metric_spec. replace (memb String.eqb o ["maximize"; "minimize"]) with true by (destruct Io as [<-|[<-|[]]]; reflexivity).
  destruct (metric_f_exp s) as [f|e]; [|reflexivity]. cbn [vf bind]. rewrite ?V_leaf. cbn beta iota. rewrite call_plain by reflexivity.
  change (problem_callback "metric_spec") with (fun args => pure (St := objs) (pb_metric_spec args)). unfold pure, pb_metric_spec. cbn [arg nth_error bind tok_is as_form as_str].
  replace (String.eqb o "minimize" || String.eqb o "maximize") with true by (destruct Io as [<-|[<-|[]]]; reflexivity). unfold liftP. destruct (mk_metric f o); reflexivity.
Qed.

(** * Sections *)
Lemma preqs_tree p w nx : TT (N "requirements") [p] w nx -> exists body rs, sx w (SList (SAtom (TKw ":requirements") :: body)) /\
  require_keys body = Ok rs /\ forall st, PV p st = (st, Ok (VKw "requirements" (VReqs (dedup req_eqb rs)))).
Proof.
  intros H. trule H. inversion Ec; subst. tseq H. subst. rewrite app_nil_r. cbn [app].
  pose proof (plus_many K) as K'. apply (keys_tree problem_callback) in K' as (l & rs & S1 & E1 & V1).
  assert (Kl : require_keys l = Ok rs).
  { unfold require_keys. destruct l; [|now rewrite E1]. exfalso. destruct S1 as [S1 _]. apply t_plus in K as (a1 & a2 & b1 & b2 & -> & -> & H1 & H2). apply key_tree in H1 as (k & t & r & -> & -> & _). discriminate. }
  exists l, rs. split; [sxs|]. split; [exact Kl|]. intros st. destruct (V1 st) as (vs & V2 & E2).
  rewrite visit_node, (group_visits problem_callback "(" (PLeaf ":requirements") _ ")" st _ _ eq_refl V2). cbn [bind]. rewrite call_plain by reflexivity.
  change (problem_callback "requirements") with (fun args => pure (St := objs) (pb_requirements args)). unfold pure, pb_requirements. rewrite inner_list, E2. reflexivity.
Qed.
Definition vobjs (d : objs) : value := VList (map (fun c => VTerm (const_term (snd c))) d).
Lemma objects_tree p w nx : TT (N "objects") [p] w nx -> exists body, sx w (SList (SAtom (TKw ":objects") :: body)) /\
  forall st, PV p st = match objects_section body with Ok d => (d, Ok (VKw "objects" (vobjs d))) | Err e => (st, Err e) end.
Proof.
  intros H. trule H. inversion Ec; subst. tseq H. subst. trule1 K. apply names_list with (callback := problem_callback) in K as (l & S1 & V1); [|reflexivity]. exists l. split; [sxs|].
  intros st. rewrite visit_node. cbn [app visits]. rewrite !V_leaf, V1. unfold objects_section. destruct (typed_list_name l) as [d|e]; [|reflexivity]. cbn [bind]. rewrite ?V_leaf. cbn beta iota. rewrite call_plain by reflexivity.
  change (problem_callback "objects") with pb_objects. unfold pb_objects. cbn [arg nth_error bind as_names]. destruct (constants_by_name d); reflexivity.
Qed.
Lemma inits_tree p w nx : TT (N "init") [p] w nx -> exists l, sx w (SList (SAtom (TKw ":init") :: l)) /\
  forall st, PV p st = (st, liftP (fun fs => VKw "init" (VList (map VForm fs))) (mapR (init_el st) l)).
Proof.
  intros H. trule H. inversion Ec; subst. tseq H. subst. rewrite app_nil_r. cbn [app]. apply t_star in K.
  apply many_trees' with (Q := fun p s => forall st, PV p st = (st, vf (init_el st s))) in K as (l & S1 & F1); [|apply init_tree]. exists l. split; [sxs|].
  intros st. rewrite visit_node, (group_visits problem_callback "(" (PLeaf ":init") _ ")" st _ _ eq_refl (map_visits problem_callback init_el _ _ st F1)).
  unfold liftP. destruct (mapR (init_el st) l) as [fs|e]; [|reflexivity]. cbn [bind]. rewrite call_plain by reflexivity.
  change (problem_callback "init") with (fun args => pure (St := objs) (pb_init args)). unfold pure, pb_init. rewrite inner_list. do 5 f_equal. induction fs as [|f fs IH]; [reflexivity|]. cbn. now rewrite IH.
Qed.
Lemma goal_tree p w nx : TT (N "goal") [p] w nx -> exists g, sx w (SList [SAtom (TKw ":goal"); g]) /\
  forall st, PV p st = (st, liftP (fun f => VKw "goal" (VForm f)) (gd problem_ctx g)).
Proof.
  intros H. trule H. inversion Ec; subst. tseq H. subst. trule1 K. apply p_gd in K as (s & S1 & V1 & _). exists s. split; [sxs|].
  intros st. rewrite visit_node. cbn [app visits]. rewrite !V_leaf, V1. destruct (gd problem_ctx s) as [f|e]; reflexivity.
Qed.

(** * The whole problem *)
Lemma pobjs_back d : mapR (fun v => let* t := as_term v in Ok (const_of t)) (map (fun c : string * const => VTerm (const_term (snd c))) d) = Ok (map snd d).
Proof. induction d as [|[n [m t]] d IH]; [reflexivity|]. cbn [map mapR]. rewrite IH. reflexivity. Qed.
Lemma dedup_req_idem rs : dedup req_eqb (dedup req_eqb rs) = dedup req_eqb rs.
Proof.
  unfold dedup. generalize (@nil req). induction rs as [|x rs IH]; intros seen; [reflexivity|]. cbn [dedup_from]. destruct (memb req_eqb x seen) eqn:E; [apply IH|]. cbn [dedup_from]. now rewrite E, IH.
Qed.
(** the objects left in the parser *)
Definition objects_left (st : objs) (s : sexp) : objs :=
  match s with
  | SList (_ :: _ :: _ :: secs) => match section ":objects" (snd (section ":requirements" secs)) with
                                   | (Some b, _) => match objects_section b with Ok d => d | Err _ => st end
                                   | _ => st
                                   end
  | _ => st
  end.
Lemma problem_called n dn (rs : option (list req)) (os : option objs) fs g (m : option metric) :
  pb_problem (VTok "(" :: VTok "define" :: VKw "name" (VTok n) :: VKw "domain_name" (VTok dn) ::
             [match rs with Some rs => VKw "requirements" (VReqs (dedup req_eqb rs)) | None => VNone end] ++ [optv "objects" vobjs os] ++ [VKw "init" (VList (map VForm fs)); VKw "goal" (VForm g)]
             ++ [optv "metric" VMetric m] ++ [VTok ")"])
  = liftP VProblem (mk_problem n None (Some dn) rs (match os with Some d => map snd d | None => [] end) fs (Some g) m).
Proof.
  unfold pb_problem, liftP.
  destruct rs as [rs|], os as [os|], m as [m|]; cbn; rewrite ?forms_back; cbn; rewrite ?pobjs_back; cbn; unfold mk_problem; cbn; rewrite ?dedup_req_idem; reflexivity.
Qed.
Theorem problem_worth p w nx : TT (N "problem") [p] w nx -> exists s, sx w s /\ forall st, PV p st = (objects_left st s, liftP VProblem (parse_problem_sexp st [s])).
Proof.
  intros H. trule H. inversion Ec; subst. tseq H. subst. rewrite app_nil_r. cbn [app].
  trule K. subst. tseq K. subst. trule K0. subst. tseq K0. subst.
  assert (X1 : exists o r, sxl u3 (sec ":requirements" o) /\ opt_res require_keys o = Ok r /\ forall st, PVS c3 st = (st, Ok [match r with Some rs => VKw "requirements" (VReqs (dedup req_eqb rs)) | None => VNone end])).
  { apply t_opt in K1 as [[-> ->]|K1]; [exists None, None; split; [apply sxl_nil|auto]|]. trule1 K1. apply preqs_tree in K1 as (b & rs & S1 & E1 & V1). exists (Some b), (Some rs). split; [now apply sxl_one|]. split; [cbn; now rewrite E1|]. intros st. apply (visits_one problem_callback _ _ _ (V1 st)). }
  assert (X2 : exists o, sxl u4 (sec ":objects" o) /\ forall st, PVS c4 st = match opt_res objects_section o with Ok r => (match r with Some d => d | None => st end, Ok [optv "objects" vobjs r]) | Err e => (st, Err e) end).
  { apply t_opt in K2 as [[-> ->]|K2]; [exists None; split; [apply sxl_nil|reflexivity]|]. trule1 K2. apply objects_tree in K2 as (b & S1 & V1). exists (Some b). split; [now apply sxl_one|]. intros st. cbn [visits opt_res]. rewrite V1. destruct (objects_section b); reflexivity. }
  assert (X5 : exists o, sxl u7 (sec ":metric" o) /\ forall st, PVS c7 st = (st, let* r := opt_res metric_spec o in Ok [optv "metric" VMetric r])).
  { apply t_opt in K5 as [[-> ->]|K5]; [exists None; split; [apply sxl_nil|reflexivity]|]. trule1 K5. apply spec_tree in K5 as (b & S1 & V1). exists (Some b). split; [now apply sxl_one|]. intros st. cbn [visits opt_res]. rewrite V1. destruct (metric_spec b); reflexivity. }
  destruct X1 as (o1 & r1 & S1 & E1 & V1). destruct X2 as (o2 & S2 & V2). destruct X5 as (o5 & S5 & V5).
  trule1 K3. apply inits_tree in K3 as (inits & S3 & V3). trule1 K4. apply goal_tree in K4 as (g & S4 & V4).
  exists (SList (SAtom (TWord "define") :: SList [SAtom (TWord "problem"); SAtom (TWord x)] :: SList [SAtom (TKw ":domain"); SAtom (TWord x0)] ::
     sec ":requirements" o1 ++ sec ":objects" o2 ++ SList (SAtom (TKw ":init") :: inits) :: SList [SAtom (TKw ":goal"); g] :: sec ":metric" o5)).
  split; [sxs|].
  intros st. cbn [parse_problem_sexp String.eqb Ascii.eqb Bool.eqb andb is_kw]. unfold problem_rule, objects_left.
  assert (St2 : starts [":init"] (SList (SAtom (TKw ":init") :: inits) :: SList [SAtom (TKw ":goal"); g] :: sec ":metric" o5)) by (repeat eexists; cbn; auto).
  pose proof (starts_sec ":objects" _ o2 _ St2) as St1.
  rewrite (section_read ":requirements" _ o1 _ St1) by (cbn; intros F; repeat destruct F as [F|F]; try discriminate; exact F). cbn [snd].
  rewrite (section_read ":objects" _ o2 _ St2) by (cbn; intros F; repeat destruct F as [F|F]; try discriminate; exact F).
  cbn [section is_kw String.eqb Ascii.eqb Bool.eqb]. assert (Em : section ":metric" (sec ":metric" o5) = (o5, [])) by (destruct o5; reflexivity). rewrite Em, E1. cbn [bind].
  rewrite visit_node. cbn [visits]. rewrite !V_leaf. cbn beta iota. cbn [app visits].
  match goal with |- context [PV (PNode ?a ?b) st] => change (PV (PNode a b) st) with (st, Ok (VKw "name" (VTok x))) end. cbn beta iota.
  match goal with |- context [PV (PNode ?a ?b) st] => change (PV (PNode a b) st) with (st, Ok (VKw "domain_name" (VTok x0))) end. cbn beta iota.
  rewrite visits_app, V1. rewrite visits_app, V2. 
  match goal with |- _ = (?X, _) => assert (Ob : X = match opt_res objects_section o2 with Ok (Some d) => d | _ => st end) end.
  { destruct o2 as [b|]; [|reflexivity]. cbn [opt_res]. destruct (objects_section b); reflexivity. }
  rewrite Ob. destruct (opt_res objects_section o2) as [os|e]; [|reflexivity]. cbn [bind].
  cbn [app visits]. rewrite V3. set (st1 := match os with Some d => d | None => st end). replace (match os with Some d => d | None => st end) with st1 by reflexivity.
  destruct (mapR (init_el st1) inits) as [fs|e]; [|destruct os; reflexivity]. cbn [liftP bind]. rewrite V4. destruct (gd problem_ctx g) as [f|e]; [|destruct os; reflexivity]. cbn [liftP bind].
  rewrite visits_app, V5. destruct (opt_res metric_spec o5) as [m|e]; [|destruct os; reflexivity]. cbn [bind visits]. rewrite V_leaf. cbn beta iota.
  rewrite call_plain by reflexivity. change (problem_callback "problem") with (fun args => pure (St := objs) (pb_problem args)). unfold pure.
  pose proof (problem_called x x0 r1 os fs f m) as PC. cbn [app] in PC |- *. rewrite PC. unfold st1. destruct os; reflexivity.
Qed.

(** * Plans *)
Notation LV := (visit VTok VNone (call plan_callback)).
Lemma step_tree p w nx : TT (N "ground_action") [p] w nx -> exists s, sx w s /\ forall st, LV p st = (st, liftP (fun a => VStep (fst a) (snd a)) (ground_action s)).
Proof.
  intros H. trule H. inversion Ec; subst. tseq H; subst. trule K. subst. tword K. subst. rewrite app_nil_r. cbn [app]. apply t_star in K0. apply names_tree in K0 as (xs & -> & S1).
  exists (SList (SAtom (TWord x) :: ws xs)). split; [sxs|].
  intros st. rewrite visit_node, (group_visits plan_callback "(" _ _ ")" st _ _ (V_inl plan_callback "predicate" (PLeaf x) st _ eq_refl eq_refl) (leaves_visits plan_callback xs st)). cbn [bind]. rewrite call_plain by reflexivity.
  change (plan_callback "ground_action") with (fun args => pure (St := unit) (pl_ground_action args)). unfold pure, pl_ground_action. cbn [arg nth_error bind].
  assert (E : (if Nat.ltb 3 (length (VTok "(" :: VTok x :: map VTok xs ++ [VTok ")"])) then inner (VTok "(" :: VTok x :: map VTok xs ++ [VTok ")"]) else []) = map VTok xs) by (destruct xs; [reflexivity|]; rewrite inner_list; cbn; rewrite app_length; cbn; now rewrite Nat.add_comm).
  rewrite E, strs_back. cbn [as_str bind ground_action]. rewrite ws_word. cbn [of_opt bind]. unfold liftP. destruct (mapR _ xs); reflexivity.
Qed.
Theorem plan_worth p w nx : TT (N "plan") [p] w nx -> exists l, sxl w l /\ forall st, LV p st = (st, liftP VPlan (mapR ground_action l)).
Proof.
  intros H. trule H. inversion Ec; subst. apply t_star in H. apply many_trees' with (Q := fun p s => forall st, LV p st = (st, liftP (fun a => VStep (fst a) (snd a)) (ground_action s))) in H as (l & S1 & F1); [|apply step_tree].
  exists l. split; [exact S1|]. intros st. rewrite visit_node, (visits_map plan_callback ground_action _ _ _ st (forall2_at (fun p s st => LV p st = (st, liftP (fun a => VStep (fst a) (snd a)) (ground_action s))) _ _ F1 st)).
  unfold liftP. destruct (mapR ground_action l) as [xs|e]; [|reflexivity]. cbn [bind]. rewrite call_plain by reflexivity. cbn [plan_callback String.eqb Ascii.eqb Bool.eqb pure pl_plan]. unfold pl_plan, pure.
  replace (mapR as_step (map (fun a => VStep (fst a) (snd a)) xs)) with (Ok xs); [reflexivity|]. induction xs as [|[n ks] xs IH]; [reflexivity|]. cbn [map mapR as_step bind]. rewrite <- IH. reflexivity.
Qed.
