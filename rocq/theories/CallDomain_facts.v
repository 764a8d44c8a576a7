(** What the tree of a domain is worth: what Parser.v computes. *)
From Coq Require Import String Ascii List Bool NArith Arith Lia.
From Verif Require Import Py Names Reqs Logic Validation Core Lexer TypedList UpdateTags Parser Py_facts Names_facts Lex_facts
     GD_facts Spec_Grammar Words_facts Grammar_facts GrammarText_facts GrammarAll_facts Lark Spec_Lark LarkMain_facts Callbacks CallTree_facts CallForm_facts CallLists_facts CallEffect_facts.
Import ListNotations.
Open Scope string_scope.
Open Scope list_scope.

Ltac trule1 H := let cs := fresh "cs" in destruct (t_N _ _ _ _ H) as (? & ? & cs & -> & _).

(** * Skeletons *)
Definition vpred (a : atom) : value := VForm (FPred (fst a) (snd a)).
Definition vfun (a : atom) : value := VForm (FNumFun (fst a) (snd a)).
Lemma mk_pred_shape n ts f : mk_pred n ts = Ok f -> exists m us, f = FPred m us.
Proof. unfold mk_pred. intros H. repeat (apply bind_Ok in H as (? & ? & H)). inversion H. eauto. Qed.
Lemma mk_numfun_shape n ts f : mk_numfun n ts = Ok f -> exists m us, f = FNumFun m us.
Proof. unfold mk_numfun. intros H. repeat (apply bind_Ok in H as (? & ? & H)). inversion H. eauto. Qed.
Lemma skeleton_tree p w nx : TT (N "atomic_formula_skeleton") [p] w nx -> exists s, sx w s /\ (exists l, s = SList l) /\ forall st, DV p st = (st, let* a := atomic_formula_skeleton s in Ok (vpred a)).
Proof.
  intros H. trule H. inversion Ec; subst. tseq H. subst. trule1 K. apply d_vars in K as (l & S1 & _ & V1). exists (SList (SAtom (TWord x) :: l)). split; [sxs|]. split; [eauto|].
  intros st. rewrite visit_node. cbn [app visits]. rewrite !V_leaf, V1. cbn [atomic_formula_skeleton]. destruct (typed_list_variable l) as [tl|e]; [|reflexivity]. cbn [bind]. rewrite ?V_leaf. cbn beta iota.
  rewrite call_plain by reflexivity. change (domain_callback "atomic_formula_skeleton") with (fun args => pure (St := dstate) (cb_atomic_formula_skeleton args)). unfold pure, cb_atomic_formula_skeleton, formula_skeleton.
  cbn [arg nth_error bind as_vars as_str]. destruct (mk_vars tl) as [vars|e]; [|reflexivity]. cbn [bind]. destruct (mk_pred x (map TVar vars)) as [f|e] eqn:Ef; [|reflexivity]. apply mk_pred_shape in Ef as (m & us & ->). reflexivity.
Qed.
Lemma fskeleton_tree p w nx : TT (N "atomic_function_skeleton") [p] w nx -> exists s, sx w s /\ (exists l, s = SList l) /\ forall st, DV p st = (st, let* a := atomic_function_skeleton s in Ok (vfun a)).
Proof.
  intros H. trule H. inversion Ec; subst. tseq H. subst. trule1 K. apply d_vars in K as (l & S1 & _ & V1). exists (SList (SAtom (TWord x) :: l)). split; [sxs|]. split; [eauto|].
  intros st. rewrite visit_node. cbn [app visits]. rewrite !V_leaf, V1. cbn [atomic_function_skeleton]. destruct (typed_list_variable l) as [tl|e]; [|reflexivity]. cbn [bind]. rewrite ?V_leaf. cbn beta iota.
  rewrite call_plain by reflexivity. change (domain_callback "atomic_function_skeleton") with (fun args => pure (St := dstate) (cb_atomic_function_skeleton args)). unfold pure, cb_atomic_function_skeleton, formula_skeleton.
  cbn [arg nth_error bind as_vars as_str tok_is]. destruct (String.eqb x "total-cost"); [reflexivity|]. destruct (mk_vars tl) as [vars|e]; [|reflexivity]. cbn [bind].
  destruct (mk_numfun x (map TVar vars)) as [f|e] eqn:Ef; [|reflexivity]. apply mk_numfun_shape in Ef as (m & us & ->). reflexivity.
Qed.
Lemma forall2_at {A B St} (Q : A -> B -> St -> Prop) l m : Forall2 (fun a b => forall st, Q a b st) l m -> forall st, Forall2 (fun a b => Q a b st) l m.
Proof. induction 1; intros st; constructor; auto. Qed.
Lemma skeletons_tree cs w nx : many (N "atomic_formula_skeleton") cs w nx -> exists l, sxl w l /\ forall st, DVS cs st = (st, let* ps := mapR atomic_formula_skeleton l in Ok (map vpred ps)).
Proof.
  intros H. apply many_trees' with (Q := fun p s => forall st, DV p st = (st, let* a := atomic_formula_skeleton s in Ok (vpred a))) in H as (l & S1 & F).
  - exists l. split; [exact S1|]. intros st. apply visits_map. exact (forall2_at (fun p s st => DV p st = (st, let* a := atomic_formula_skeleton s in Ok (vpred a))) _ _ F st).
  - intros p u nx' K. apply skeleton_tree in K as (s & S1 & _ & V1). eauto.
Qed.

(** * Functions *)
Definition OKf (seen : bool) (w : tokens) (l : list sexp) (rv : res (list value)) : Prop := tl_functions seen l = let* vs := rv in Ok (fun_items vs).
Lemma functions_tree p w nx : TT (N "f_typed_list_atomic_function_skeleton") [p] w nx -> exists l, sxl w l /\ forall st, DV p st = (st, let* d := functions_section l in Ok (VFuns d)).
Proof.
  intros H. trule H. inversion Ec; subst.
  assert (Ne : w <> []).
  { assert (X : forall cs w nx, TT (Plus (N "atomic_function_skeleton")) cs w nx -> w <> []).
    { clear. intros cs w nx H. apply t_plus in H as (a1 & a2 & b1 & b2 & -> & -> & H & _). trule H. tseq H. subst. discriminate. }
    clear Ec Al. talt H; [eauto|]. tseq H. subst. apply t_plus in K as (a1 & a2 & b1 & b2 & -> & -> & K & _). tseq K. subst. intros E. apply app_eq_nil in E as [E _]. apply app_eq_nil in E as [E _].
    apply app_eq_nil in E as [E _]. eapply X; eauto. }
  assert (X : exists l rv, piece domain_callback cs w l rv /\ OKf false w l rv).
  { assert (Hn : forall seen, OKf seen [] [] (Ok [])) by reflexivity.
    assert (Hv : forall cs w nx, TT (N "atomic_function_skeleton") cs w nx -> exists l rv, piece domain_callback cs w l rv /\ forall seen w' r rv', OKf true w' r rv' -> OKf seen (w ++ w') (l ++ r) (join rv rv')).
    { clear. intros cs w nx H. trule1 H. apply fskeleton_tree in H as (s & S1 & (l & ->) & V1). exists [SList l], (let* a := atomic_function_skeleton (SList l) in Ok [vfun a]). split.
      - split; [now apply sxl_one|]. intros st. rewrite (visits_one domain_callback _ _ _ (V1 st)). destruct (atomic_function_skeleton (SList l)); reflexivity.
      - intros seen w' r rv' E. unfold OKf in *. cbn [app tl_functions]. destruct (atomic_function_skeleton (SList l)) as [[n ts]|e]; [|reflexivity]. cbn [bind]. rewrite E. destruct rv'; reflexivity. }
    assert (Ht : forall cs w w' nx, TT (N "f_type_def") cs w (next w' nx) -> exists l rv, piece domain_callback cs w l rv /\
              forall r rv', OKf false w' r rv' -> OKf true (("TYPE_SEP", "-") :: w ++ w') (SAtom (TOp "-") :: l ++ r) (join (Ok [VTok "-"]) (join rv rv'))).
    { clear. intros cs w w' nx H. trule H. subst. tword H. subst. exists [SAtom (TWord "number")], (Ok [VTok "number"]). split.
      - split; [apply sxl_one, sx_atom; [reflexivity|good1]|]. intros st. cbn [visits]. now rewrite (V_inl domain_callback "f_type_def" (PLeaf "number") st _ eq_refl eq_refl).
      - intros r rv' E. unfold OKf in *. cbn [app tl_functions String.eqb Ascii.eqb Bool.eqb andb]. rewrite E. destruct rv'; reflexivity. }
    talt H; [|eapply (tl_all domain_callback _ _ OKf); eauto].
    apply t_plus in H as (a1 & a2 & b1 & b2 & -> & -> & H1 & H2). eapply (tl_any domain_callback _ OKf); eauto. apply many_cons; eassumption. }
  destruct X as (l & rv & [S1 V1] & E). exists l. split; [exact S1|]. intros st. rewrite visit_node, V1. unfold OKf in E.
  assert (F : functions_section l = let* ts := tl_functions false l in except_value (let* ix := parse_typed_list atom_eqb (fun f => Ok f) ts false in typed_list_of_names ix) TypeError).
  { destruct l; [|reflexivity]. exfalso. apply Ne. destruct S1 as [S1 _]. destruct w; [reflexivity|discriminate]. }
  rewrite F, E. destruct rv as [vs|e]; [|reflexivity]. cbn [bind]. rewrite call_plain by reflexivity. reflexivity.
Qed.

(** * Sections *)
Lemma plus_many {e cs w nx} : TT (Plus e) cs w nx -> many e cs w nx.
Proof. intros H. apply t_plus in H as (a1 & a2 & b1 & b2 & -> & -> & H1 & H2). now apply many_cons. Qed.
Definition liftM {A} (g : A -> value) (m : dstate * res A) : dstate * res value := (fst m, let* a := snd m in Ok (g a)).
Lemma key_tree cs w nx : TT (N "require_key") cs w nx -> exists k t r, cs = [PNode "require_key" [PLeaf k]] /\ w = [(t, k)] /\
  kindb k = Some (TKw k) /\ require_key (SAtom (TKw k)) = Some r /\ requirement (VTok k) = Ok r.
Proof. intros H. trule H. subst. talt H; tword H; subst; repeat eexists. Qed.
Lemma keys_tree {St} (cb : string -> list value -> St -> St * res value) cs w nx : many (N "require_key") cs w nx -> exists l rs, sxl w l /\ mapO require_key l = Some rs /\
  forall st, exists vs, visits cb cs st = (st, Ok vs) /\ mapR requirement vs = Ok rs.
Proof.
  induction 1 as [nx|c1 c2 u v nx H _ (l & rs & S1 & E1 & V1)]; [exists [], []; split; [apply sxl_nil|]; split; [reflexivity|]; intros st; exists []; auto|].
  apply key_tree in H as (k & t & r & -> & -> & Kk & E2 & E3). exists (SAtom (TKw k) :: l), (r :: rs). split; [apply (sxl_cons [(t, k)]); [apply sx_atom; [reflexivity|now apply kw_good]|exact S1]|].
  split; [cbn [mapO]; now rewrite E2, E1|]. intros st. destruct (V1 st) as (vs & V2 & E4). exists (VTok k :: vs). split.
  - cbn [app visits]. rewrite (V_inl cb "require_key" (PLeaf k) st _ eq_refl eq_refl), V2. reflexivity.
  - cbn [mapR]. now rewrite E3, E4.
Qed.
Lemma reqs_tree p w nx : TT (N "requirements") [p] w nx -> exists body, sx w (SList (SAtom (TKw ":requirements") :: body)) /\
  (exists rs, require_keys body = Ok rs) /\ forall st, DV p st = liftM (fun rs => VKw "requirements" (VReqs rs)) (requirements body st).
Proof.
  intros H. trule H. inversion Ec; subst. tseq H. subst. rewrite app_nil_r. cbn [app].
  pose proof (plus_many K) as K'. apply (keys_tree domain_callback) in K' as (l & rs & S1 & E1 & V1).
  assert (Kl : require_keys l = Ok rs).
  { unfold require_keys. destruct l; [|now rewrite E1]. exfalso. destruct S1 as [S1 _]. apply t_plus in K as (a1 & a2 & b1 & b2 & -> & -> & H1 & H2). apply key_tree in H1 as (k & t & r & -> & -> & _). discriminate. }
  exists l. split; [sxs|]. split; [eauto|]. intros st. destruct (V1 st) as (vs & V2 & E2).
  rewrite visit_node, (group_visits domain_callback "(" (PLeaf ":requirements") _ ")" st _ _ eq_refl V2). cbn [bind]. rewrite call_plain by reflexivity.
  change (domain_callback "requirements") with cb_requirements. unfold cb_requirements. rewrite inner_list, E2. unfold requirements. rewrite Kl. reflexivity.
Qed.
Lemma types_tree p w nx : TT (N "types") [p] w nx -> exists body, sx w (SList (SAtom (TKw ":types") :: body)) /\
  forall st, DV p st = liftM (fun d => VKw "types" (VNames d)) (types_section body st).
Proof.
  intros H. trule H. inversion Ec; subst. tseq H. subst. trule1 K. apply names_list with (callback := domain_callback) in K as (l & S1 & V1); [|reflexivity]. exists l. split; [sxs|].
  intros st. rewrite visit_node. cbn [app visits]. rewrite !V_leaf, V1. unfold types_section, bindM, ret, reads, modify, liftM. destruct (typed_list_name l) as [d|e]; [|reflexivity]. cbn [bind]. rewrite ?V_leaf. cbn beta iota.
  rewrite call_plain by reflexivity. change (domain_callback "types") with cb_types. unfold cb_types. cbn [arg nth_error bind as_names].
  destruct (check (negb (existsb _ d) || has TYPING (s_ext st)) (PDDLMissingRequirementError TYPING)); [|reflexivity]. cbn [bind]. destruct (check _ AssertionError); reflexivity.
Qed.
Lemma consts_tree p w nx : TT (N "constants") [p] w nx -> exists body, sx w (SList (SAtom (TKw ":constants") :: body)) /\
  forall st, DV p st = liftM (fun cs => VKw "constants" (VList (map (fun c => VTerm (const_term c)) cs))) (constants_section body st).
Proof.
  intros H. trule H. inversion Ec; subst. tseq H. subst. trule1 K. apply names_list with (callback := domain_callback) in K as (l & S1 & V1); [|reflexivity]. exists l. split; [sxs|].
  intros st. rewrite visit_node. cbn [app visits]. rewrite !V_leaf, V1. unfold constants_section, bindM, ret, reads, modify, liftM. destruct (typed_list_name l) as [d|e]; [|reflexivity]. cbn [bind]. rewrite ?V_leaf. cbn beta iota.
  rewrite call_plain by reflexivity. change (domain_callback "constants") with cb_constants. unfold cb_constants. cbn [arg nth_error bind as_names].
  destruct (constants_by_name d) as [cs'|e]; [|reflexivity]. cbn [bind fst snd]. now rewrite map_map.
Qed.
Lemma preds_back ps : mapR as_pred (map vpred ps) = Ok ps.
Proof. induction ps as [|[n ts] ps IH]; [reflexivity|]. cbn [map mapR]. rewrite IH. reflexivity. Qed.
Lemma preds_tree p w nx : TT (N "predicates") [p] w nx -> exists body, sx w (SList (SAtom (TKw ":predicates") :: body)) /\
  forall st, DV p st = liftM (fun ps => VKw "predicates" (VList (map vpred ps))) (predicates_section body st).
Proof.
  intros H. trule H. inversion Ec; subst. tseq H. subst. rewrite app_nil_r. cbn [app].
  apply t_plus in K as (a1 & a2 & b1 & b2 & -> & -> & H1 & H2). trule1 H1. pose proof H1 as H1'. apply skeleton_tree in H1' as (s & S1 & _).
  assert (M : many (N "atomic_formula_skeleton") ([PNode (base "atomic_formula_skeleton") cs] ++ a2) (b1 ++ b2) (next [("RPAR", ")")] nx)) by now apply many_cons.
  apply skeletons_tree in M as (l & S2 & V1).
  assert (El : predicates_section l = fun st => (do ps <- ret (mapR atomic_formula_skeleton l); do _ <- modify (set_predicates (dict_of_list String.eqb (map (fun p => (fst p, p)) ps))); ret (Ok ps)) st).
  { destruct l; [|reflexivity]. exfalso. destruct S2 as [S2 _]. destruct S1 as [S1 _]. rewrite map_app, S1 in S2. destruct (app_eq_nil _ _ S2) as [S3 _].
    assert (exists x1 y1, ww s = x1 :: y1) as (x1 & y1 & Ex) by (destruct s; [eexists _, _; reflexivity|rewrite ww_list; eauto]). congruence. }
  exists l. split; [revert S2; clear; generalize (b1 ++ b2); intros bb S2; sxs|]. intros st. rewrite visit_node, (group_visits domain_callback "(" (PLeaf ":predicates") _ ")" st _ _ eq_refl (V1 st)). rewrite El. unfold bindM, ret, modify, liftM.
  destruct (mapR atomic_formula_skeleton l) as [ps|e]; [|reflexivity]. cbn [bind]. rewrite call_plain by reflexivity. change (domain_callback "predicates") with cb_predicates. unfold cb_predicates. rewrite inner_list, preds_back. reflexivity.
Qed.
Lemma funs_tree p w nx : TT (N "functions") [p] w nx -> exists body, sx w (SList (SAtom (TKw ":functions") :: body)) /\
  forall st, DV p st = liftM (fun d => VKw "functions" (VFuns d)) (ret (functions_section body) st).
Proof.
  intros H. trule H. inversion Ec; subst. tseq H. subst. trule1 K. apply functions_tree in K as (l & S1 & V1). exists l. split; [sxs|].
  intros st. rewrite visit_node. cbn [app visits]. rewrite !V_leaf, V1. unfold ret, liftM. destruct (functions_section l) as [d|e]; [|reflexivity]. cbn [bind]. rewrite ?V_leaf. cbn beta iota. rewrite call_plain by reflexivity. reflexivity.
Qed.

(** * Actions and derived predicates *)
Lemma params_tree p w nx : TT (N "action_parameters") [p] w nx -> exists l, sx w (SList l) /\ forall st, DV p st = liftM (fun ts => VList (map VTerm ts)) (action_parameters l st).
Proof.
  intros H. trule H. inversion Ec; subst. tseq H. subst. trule1 K. apply d_vars in K as (l & S1 & _ & V1). exists l. split; [sxs|].
  intros st. rewrite visit_node. cbn [app visits]. rewrite !V_leaf, V1. unfold action_parameters, bindM, ret, modify, liftM. destruct (typed_list_variable l) as [tl|e]; [|reflexivity]. cbn [bind]. rewrite ?V_leaf. cbn beta iota.
  rewrite call_plain by reflexivity. change (domain_callback "action_parameters") with cb_action_parameters. unfold cb_action_parameters. cbn [arg nth_error bind as_vars].
  destruct (mk_vars tl) as [vars|e]; [|reflexivity]. cbn [bind fst snd]. now rewrite map_map.
Qed.
Lemma terms_back ts : mapR as_term (map VTerm ts) = Ok ts.
Proof. induction ts as [|t ts IH]; [reflexivity|]. cbn. now rewrite IH. Qed.
Lemma V_none {St} (cb : string -> list value -> St -> St * res value) st : visit VTok VNone (call cb) PNone st = (st, Ok VNone).
Proof. reflexivity. Qed.
Definition opt_form (k : string) (o : option form) : list value := match o with Some f => [VTok k; VForm f] | None => [VNone; VNone] end.
(** the body of an action: its parts, or an exception of one of them *)
Lemma body_tree p w nx : TT (N "action_body_def") [p] w nx -> exists l, sxl w l /\ forall st, exists r, DV p st = (st, r) /\
  match r with
  | Err e => action_body l st = Err e
  | Ok v => exists pre eff, v = VTree "action_body_def" (opt_form ":precondition" pre ++ opt_form ":effect" eff) /\
              action_body l st = match pre, eff with Some p, Some e => Ok (p, e) | _, _ => Err TypeError end
  end.
Proof.
  intros H. trule H. inversion Ec; subst. tseq H. subst.
  assert (X : forall vs st, length vs = 4 -> call domain_callback "action_body_def" vs st = (st, Ok (VTree "action_body_def" vs))).
  { intros [|a [|b vs]] st Hl; try discriminate. reflexivity. }
  rewrite !app_nil_r. apply t_opt in K as [[-> ->]|K]; apply t_opt in K0 as [[-> ->]|K0].
  - exists []. split; [apply sxl_nil|]. intros st. eexists. split; [reflexivity|]. exists None, None. split; reflexivity.
  - tseq K0. subst. trule1 K. apply d_eff in K as (s & S1 & V1). exists [SAtom (TKw ":effect"); s]. split; [sxs|].
    intros st. rewrite visit_node. cbn [holes dropped Ascii.eqb Bool.eqb repeat app visits Nat.add]. rewrite V_none. cbn beta iota. rewrite V_none. cbn beta iota. rewrite V_leaf. cbn beta iota. rewrite V1.
    cbn [action_body is_kw String.eqb Ascii.eqb Bool.eqb]. destruct (emptyor_effect (dctx st) s) as [f|e]; [|eexists; split; reflexivity]. cbn [vf bind]. rewrite X by reflexivity.
    eexists. split; [reflexivity|]. exists None, (Some f). split; reflexivity.
  - tseq K. subst. trule1 K0. apply d_pre in K0 as (s & S1 & V1). exists [SAtom (TKw ":precondition"); s]. split; [sxs|].
    intros st. rewrite visit_node. cbn [holes dropped Ascii.eqb Bool.eqb repeat app visits Nat.add]. rewrite V_leaf. cbn beta iota. rewrite V1.
    cbn [action_body is_kw String.eqb Ascii.eqb Bool.eqb]. destruct (emptyor_pregd (dctx st) s) as [f|e]; [|eexists; split; reflexivity]. cbn [vf bind]. rewrite V_none. cbn beta iota. rewrite V_none. cbn beta iota. rewrite X by reflexivity.
    eexists. split; [reflexivity|]. exists (Some f), None. split; reflexivity.
  - tseq K. tseq K0. subst. trule1 K1. trule1 K. apply d_pre in K1 as (s1 & S1 & V1). apply d_eff in K as (s2 & S2 & V2). exists [SAtom (TKw ":precondition"); s1; SAtom (TKw ":effect"); s2]. split; [sxs|].
    intros st. rewrite visit_node. cbn [app visits]. rewrite V_leaf. cbn beta iota. rewrite V1. cbn [action_body is_kw String.eqb Ascii.eqb Bool.eqb andb].
    destruct (emptyor_pregd (dctx st) s1) as [f|e]; [|eexists; split; reflexivity]. cbn [vf bind]. rewrite V_leaf. cbn beta iota. rewrite V2.
    destruct (emptyor_effect (dctx st) s2) as [g|e]; [|eexists; split; reflexivity]. cbn [vf bind]. rewrite X by reflexivity.
    eexists. split; [reflexivity|]. exists (Some f), (Some g). split; reflexivity.
Qed.
Definition sval (x : action + derived) : value := match x with inl a => VAction a | inr d => VDerived d end.
Lemma structure_tree p w nx : TT (N "structure_def") [p] w nx -> exists s, sx w s /\ (forall st, DV p st = liftM sval (structure_def s st)) /\
  exists k l, s = SList (SAtom (TKw k) :: l) /\ In k [":action"; ":derived"].
Proof.
  intros H. trule H. inversion Ec; subst. talt H.
  - trule H. subst. tseq H. subst. trule1 K. trule1 K0. apply params_tree in K as (ps & S1 & V1). apply body_tree in K0 as (body & S2 & V2).
    exists (SList (SAtom (TKw ":action") :: SAtom (TWord x) :: SAtom (TKw ":parameters") :: SList ps :: body)). split; [sxs|]. split; [|repeat eexists; cbn; tauto].
    intros st. rewrite visit_node. cbn [app visits]. rewrite visit_node. cbn [visits]. rewrite !V_leaf, V1.
    unfold structure_def. cbn [is_kw String.eqb Ascii.eqb Bool.eqb]. unfold action_def. cbn [is_kw String.eqb Ascii.eqb Bool.eqb]. unfold bindM, liftM.
    destruct (action_parameters ps st) as [st1 [ts|e]]; [|reflexivity]. cbn [fst snd bind]. destruct (V2 st1) as (r & Vr & Er). rewrite Vr. unfold reads, ret.
    destruct r as [v|e]; [|rewrite Er; reflexivity]. destruct Er as (pre & eff & -> & Eb). rewrite Eb. rewrite ?V_leaf. cbn beta iota. rewrite (call_plain _ "action_def") by reflexivity.
    change (domain_callback "action_def") with (fun args => pure (St := dstate) (cb_action_def args)). unfold pure, cb_action_def. cbn [arg nth_error bind as_str as_list]. rewrite terms_back.
    destruct pre as [f|], eff as [g|]; try reflexivity. cbn. destruct (mk_action x ts (Some f) (Some g)); reflexivity.
  - trule H. subst. tseq H. subst. trule1 K. trule1 K0. apply skeleton_tree in K as (s1 & S1 & _ & V1). apply d_gd in K0 as (s2 & S2 & V2 & _).
    exists (SList [SAtom (TKw ":derived"); s1; s2]). split; [sxs|]. split; [|repeat eexists; cbn; tauto].
    intros st. rewrite visit_node. cbn [app visits]. rewrite visit_node. cbn [visits]. rewrite !V_leaf, V1.
    unfold structure_def. cbn [is_kw String.eqb Ascii.eqb Bool.eqb]. unfold derived_def, bindM, liftM, ret, reads.
    destruct (atomic_formula_skeleton s1) as [[n ts]|e]; [|reflexivity]. cbn [bind]. rewrite V2. destruct (gd (dctx st) s2) as [f|e]; [|reflexivity]. cbn [vf bind]. rewrite ?V_leaf. cbn beta iota. rewrite (call_plain _ "derived_predicates") by reflexivity.
    change (domain_callback "derived_predicates") with (fun args st => pure (St := dstate) (cb_derived_predicates args st) st). unfold pure, cb_derived_predicates. cbn [arg nth_error bind as_pred as_form vpred fst snd].
    destruct (derived_callback st (n, ts) f); reflexivity.
Qed.
