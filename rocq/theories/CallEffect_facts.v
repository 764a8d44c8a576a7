(** What the trees of the conditions and effects of a domain are worth. *)
From Coq Require Import String Ascii List Bool NArith Arith Lia.
From Verif Require Import Py Names Reqs Logic Validation Core Lexer TypedList UpdateTags Parser Py_facts Names_facts Lex_facts
     GD_facts Spec_Grammar Words_facts Grammar_facts GrammarText_facts GrammarAll_facts Lark Spec_Lark LarkMain_facts Callbacks CallTree_facts CallForm_facts CallLists_facts.
Import ListNotations.
Open Scope string_scope.
Open Scope list_scope.

Notation DV := (visit VTok VNone (call domain_callback)).
Notation DVS := (visits domain_callback).
Notation dctx := domain_ctx.

Lemma d_constant n st : domain_callback "constant" [VTok n] st = (st, let* t := g_const (dctx st) n in Ok (VTerm t)).
Proof. cbn. destruct (dict_get String.eqb n (s_constants st)); reflexivity. Qed.
Lemma d_vars p w nx : TT (N "typed_list_variable") [p] w nx -> exists l, sxl w l /\ (exists ts, tl_vars false l = Some ts) /\ forall st, DV p st = (st, let* tl := typed_list_variable l in Ok (VVars tl)).
Proof. apply vars_list; reflexivity. Qed.
Lemma d_vars' p w nx : TT (N "typed_list_variable") [p] w nx -> exists l, sxl w l /\ forall st, exists r, DV p st = (st, r) /\
    match g_vars (dctx st) l with Ok tl => exists v, r = Ok v /\ (v = VVars tl \/ g_ext (dctx st) = []) | Err e => r = Err e end.
Proof.
  intros H. apply d_vars in H as (l & S1 & _ & V1). exists l. split; [exact S1|]. intros st. eexists. split; [apply V1|]. cbn [g_vars dctx]. destruct (typed_list_variable l); cbn; eauto.
Qed.
Lemma d_atomic nm pn t p w nx : rules_of nm = [(nm, atomic_at pn, [])] -> rules_of pn = [(pn, T t, [])] ->
  base nm = "atomic_formula_term" -> base pn = "predicate" -> base t = "NAME" -> dropped t = false -> TT (N nm) [p] w nx ->
  exists s, sx w s /\ (forall st, DV p st = (st, vf (atomic_formula_term (dctx st) s))) /\
    ((exists n args, s = SList (SAtom (TWord n) :: args) /\ ~ In n (taken t)) \/ (exists args, s = SList (SAtom (TOp "=") :: args) /\ starts_term args = true)).
Proof. exact (atomic_tree domain_callback dctx d_constant (fun _ _ => eq_refl) nm pn t p w nx). Qed.
Lemma d_head p w nx : TT (N "f_head") [p] w nx -> exists s, sx w s /\ (forall st, DV p st = (st, vf (f_head (dctx st) s))) /\
  ((exists n, s = SAtom (TWord n) /\ w = [("NAME", n)]) \/ (exists n l, s = SList (SAtom (TWord n) :: l))).
Proof. apply (head_tree domain_callback dctx); try reflexivity; apply d_constant. Qed.
Lemma d_exp p w nx : TT (N "f_exp") [p] w nx -> exists s, sx w s /\ (forall st, DV p st = (st, vf (f_exp (dctx st) s))) /\
  (starts_term [s] = true -> fst (next w nx) = "NAME").
Proof. apply (exp_tree domain_callback dctx); try reflexivity. apply d_constant. Qed.
Lemma d_gd p w nx : TT (N "gd") [p] w nx -> exists s, sx w s /\ (forall st, DV p st = (st, vf (gd (dctx st) s))) /\ exists x l, s = SList (x :: l).
Proof. apply (gd_tree domain_callback dctx); try reflexivity; [apply d_constant|apply d_vars']. Qed.

(** * Effects *)
Lemma p_tree nm an pn t p w nx : rules_of nm = [(nm, p_effect_at an, [])] -> base nm = "p_effect" ->
  rules_of an = [(an, atomic_at pn, [])] -> rules_of pn = [(pn, T t, [])] ->
  base an = "atomic_formula_term" -> base pn = "predicate" -> base t = "NAME" -> dropped t = false -> incl p_words (taken t) -> TT (N nm) [p] w nx ->
  exists s, sx w s /\ (forall st, DV p st = (st, vf (p_effect (dctx st) s))) /\
    ((exists n args, s = SList (SAtom (TWord n) :: args) /\ (~ In n (taken t) \/ In n p_words)) \/ (exists args, s = SList (SAtom (TOp "=") :: args))).
Proof.
  intros R1 B1 R2 R3 B2 B3 B4 Dr Inc H. apply (t_rule _ _ _ _ _ _ R1) in H as (cs & E & _ & H). rewrite B1 in E. inversion E; subst. clear E. unfold p_effect_at in H.
  assert (HC : forall args st, call domain_callback "p_effect" args st = (st, cb_p_effect args)) by (intros; now rewrite call_plain).
  talt H.
  - tseq H. subst. rewrite app_nil_r in *. cbn [app] in *. destruct (t_N _ _ _ _ K) as (e0 & no & cs' & -> & _).
    apply (d_atomic "atomic_formula_term" "predicate" "NAME") in K as (s1 & S1 & V1 & _); try reflexivity.
    exists (SList [SAtom (TWord "not"); s1]). split; [sxs|]. split; [|left; exists "not", [s1]; split; [reflexivity|right; cbn; tauto]].
    intros st. rewrite visit_node. cbn [app visits]. rewrite !V_leaf, V1. cbn [p_effect String.eqb Ascii.eqb Bool.eqb]. destruct (atomic_formula_term (dctx st) s1); [|reflexivity].
    cbn [vf bind]. rewrite ?V_leaf. cbn beta iota. rewrite HC. reflexivity.
  - destruct (t_N _ _ _ _ H) as (e0 & no & cs' & -> & _). apply (d_atomic an pn t) in H as (s & S1 & V1 & Sh); try assumption.
    exists s. split; [exact S1|]. split; [|destruct Sh as [(n & args & -> & NT)|(args & -> & _)]; eauto 6].
    intros st. rewrite visit_node. cbn [visits]. rewrite V1. replace (p_effect (dctx st) s) with (atomic_formula_term (dctx st) s).
    + destruct (atomic_formula_term (dctx st) s); [|reflexivity]. cbn [vf bind]. now rewrite HC.
    + destruct Sh as [(n & args & -> & NT)|(args & -> & _)]; [|reflexivity]. cbn [p_effect]. assert (X : forall k, In k p_words -> String.eqb n k = false) by (intros k I; apply String.eqb_neq; intros ->; auto).
      unfold assign_op. rewrite !X by (cbn; tauto). reflexivity.
  - destruct (t_N _ _ _ _ H) as (e0 & no & cs' & -> & _). trule H. inversion Ec; subst. tseq H. subst. rewrite app_nil_r in *. cbn [app] in *.
    trule K. subst. destruct (t_N _ _ _ _ K0) as (e1 & no1 & cs1 & -> & _). destruct (t_N _ _ _ _ K1) as (e2 & no2 & cs2 & -> & _).
    apply d_head in K0 as (s1 & S1 & V1 & _). apply d_exp in K1 as (s2 & S2 & V2 & _).
    assert (X : exists o t k, cs = [PLeaf o] /\ u0 = [(t, o)] /\ In o ["assign"; "scale-up"; "scale-down"; "increase"; "decrease"] /\ assign_op o = Some k).
    { talt K; tword K; subst; repeat eexists; cbn; tauto. }
    destruct X as (o & t' & k & -> & -> & Io & Ek). exists (SList [SAtom (TWord o); s1; s2]).
    assert (Wo : In o p_words) by (cbn in Io |- *; tauto).
    split; [sxs; apply word_good; destruct Io as [<-|[<-|[<-|[<-|[<-|[]]]]]]; reflexivity|]. split; [|left; exists o, [s1; s2]; auto].
    intros st. rewrite visit_node. cbn [app visits]. rewrite visit_node. cbn [visits]. rewrite !V_leaf, (V_inl domain_callback "assign_op" (PLeaf o) st _ eq_refl eq_refl), V1.
    assert (Ep : p_effect (dctx st) (SList [SAtom (TWord o); s1; s2]) = let* f := f_head (dctx st) s1 in let* g := f_exp (dctx st) s2 in Ok (mk_binfun k [f; g])).
    { cbn [p_effect]. rewrite Ek. destruct Io as [<-|[<-|[<-|[<-|[<-|[]]]]]]; reflexivity. }
    rewrite Ep. destruct (f_head (dctx st) s1) as [f|e]; [|reflexivity]. cbn [vf bind]. rewrite V2. destruct (f_exp (dctx st) s2) as [g|e]; [|reflexivity]. cbn [vf bind]. rewrite ?V_leaf. cbn beta iota.
    rewrite call_plain by reflexivity. change (domain_callback "num_effect") with (fun args => pure (St := dstate) (cb_num_effect args)). unfold pure.
    destruct Io as [<-|[<-|[<-|[<-|[<-|[]]]]]]; vm_compute in Ek; inversion Ek; subst; reflexivity.
Qed.
Lemma cond_tree p w nx : TT (N "cond_effect") [p] w nx -> exists s, sx w s /\ forall st, DV p st = (st, vf (cond_effect (dctx st) s)).
Proof.
  intros H. trule H. inversion Ec; subst. assert (HC : forall args st, call domain_callback "cond_effect" args st = (st, cb_cond_effect args)) by (intros; now rewrite call_plain). talt H.
  - tseq H. subst. rewrite app_nil_r. cbn [app]. apply t_star in K.
    apply many_trees' with (Q := fun p s => forall st, DV p st = (st, vf (p_effect (dctx st) s))) in K as (l & S1 & F1).
    2:{ clear. intros p w nx H. apply (p_tree "p_effect@p" "atomic_formula_term@p" "predicate@p" "NAME@p") in H as (s & S1 & V1 & _); try reflexivity; [eauto|cbv; tauto]. }
    exists (SList (SAtom (TWord "and") :: l)). split; [sxs|]. intros st. rewrite visit_node.
    rewrite (group_visits domain_callback "(" (PLeaf "and") _ ")" st _ _ eq_refl (map_visits domain_callback (fun st => p_effect (dctx st)) _ _ st F1)).
    cbn [cond_effect String.eqb Ascii.eqb Bool.eqb]. destruct (mapR (p_effect (dctx st)) l) as [fs|e]; [|reflexivity]. cbn [bind]. rewrite HC. unfold cb_cond_effect. cbn [nth_error].
    replace (Nat.leb 3 (length (VTok "(" :: VTok "and" :: map VForm fs ++ [VTok ")"]))) with true by (symmetry; apply Nat.leb_le; cbn [length]; rewrite app_length; cbn; lia).
    cbn [andb tok_is String.eqb Ascii.eqb Bool.eqb]. now rewrite inner_list, forms_back.
  - destruct (t_N _ _ _ _ H) as (e0 & no & cs' & -> & _). apply (p_tree "p_effect@cond" "atomic_formula_term@cond" "predicate@cond" "NAME@cond") in H as (s & S1 & V1 & Sh); try reflexivity; [|cbv; tauto].
    exists s. split; [exact S1|]. intros st. rewrite visit_node. cbn [visits]. rewrite V1. replace (cond_effect (dctx st) s) with (p_effect (dctx st) s).
    + destruct (p_effect (dctx st) s); [|reflexivity]. cbn [vf bind]. now rewrite HC.
    + destruct Sh as [(n & args & -> & NT)|(args & ->)]; [|reflexivity]. cbn [cond_effect]. destruct (String.eqb_spec n "and") as [->|]; [|reflexivity]. exfalso. destruct NT as [NT|NT]; [apply NT; cbn; tauto|].
      cbn in NT. repeat destruct NT as [NT|NT]; try discriminate. destruct NT.
Qed.
Definition is_eff (top : bool) (p : ptree) (s : sexp) : Prop := forall st, DV p st = (st, vf (effect (dctx st) top s)).
Lemma c_tree (top : bool) pm an pn t cs w nx :
  rules_of pm = [(pm, p_effect_at an, [])] -> base pm = "p_effect" -> rules_of an = [(an, atomic_at pn, [])] -> rules_of pn = [(pn, T t, [])] ->
  base an = "atomic_formula_term" -> base pn = "predicate" -> base t = "NAME" -> dropped t = false ->
  incl (if top then effect_words else c_words) (taken t) ->
  TT (c_effect_at pm) cs w nx -> Forall (fun p => forall w nx, TT (N "effect") [p] w nx -> exists s, sx w s /\ is_eff true p s) cs ->
  exists s, sx w s /\ is_eff top (PNode "c_effect" cs) s /\ exists x l, s = SList (x :: l).
Proof.
  intros R1 B1 R2 R3 B2 B3 B4 Dr Inc H IH.
  assert (HC : forall args st, call domain_callback "c_effect" args st = (st, cb_c_effect (s_ext st) args)) by (intros; now rewrite call_plain).
  unfold c_effect_at in H. talt H.
  - tseq H. subst. rewrite app_nil_r in *. cbn [app] in *. destruct (t_N _ _ _ _ K) as (e0 & no & cs' & -> & _). destruct (t_N _ _ _ _ K0) as (e1 & no1 & cs1 & -> & _). cbn [app] in *.
    do 5 (inversion IH as [|? ? _ IH1]; subst; clear IH; rename IH1 into IH). inversion IH as [|? ? P2 _]; subst.
    apply d_vars in K as (vs & S1 & _ & V1). apply P2 in K0 as (s2 & S2 & V2).
    exists (SList [SAtom (TWord "forall"); SList vs; s2]). split; [sxs|]. split; [|eauto].
    intros st. rewrite visit_node. cbn [visits]. rewrite !V_leaf, V1. cbn [effect String.eqb Ascii.eqb Bool.eqb]. rewrite andb_false_r. cbn [g_vars dctx].
    destruct (typed_list_variable vs) as [tl|e]; [|reflexivity]. cbn [bind]. rewrite V_leaf. cbn beta iota. rewrite V2. destruct (effect (dctx st) true s2) as [f|e]; [|reflexivity]. cbn [vf bind]. rewrite ?V_leaf. cbn beta iota.
    rewrite HC. unfold cb_c_effect. cbn [length Nat.eqb arg nth_error bind tok_is String.eqb Ascii.eqb Bool.eqb as_vars]. destruct (mk_vars tl); reflexivity.
  - tseq H. subst. rewrite app_nil_r in *. cbn [app] in *. destruct (t_N _ _ _ _ K) as (e0 & no & cs' & -> & _). destruct (t_N _ _ _ _ K0) as (e1 & no1 & cs1 & -> & _). cbn [app] in *.
    apply d_gd in K as (s1 & S1 & V1 & _). apply cond_tree in K0 as (s2 & S2 & V2).
    exists (SList [SAtom (TWord "when"); s1; s2]). split; [sxs|]. split; [|eauto].
    intros st. rewrite visit_node. cbn [visits]. rewrite !V_leaf, V1. cbn [effect String.eqb Ascii.eqb Bool.eqb]. rewrite andb_false_r.
    destruct (gd (dctx st) s1) as [f|e]; [|reflexivity]. cbn [vf bind]. rewrite V2. destruct (cond_effect (dctx st) s2) as [g|e]; [|reflexivity]. cbn [vf bind]. rewrite ?V_leaf. cbn beta iota.
    rewrite HC. reflexivity.
  - tseq H. subst. rewrite app_nil_r in *. cbn [app] in *. apply t_plus in K as (a1 & a2 & b1 & b2 & -> & -> & K1 & K2). destruct (t_N _ _ _ _ K1) as (e1 & no1 & cs1 & -> & _). cbn [app] in *.
    inversion IH as [|? ? _ IH1]; subst. inversion IH1 as [|? ? _ IH2]; subst. inversion IH2 as [|? ? P1 IH3]; subst. apply Forall_app in IH3 as [IH3 _].
    apply P1 in K1 as (s1 & S1 & V1). apply many_trees with (Q := is_eff true) in K2 as (l & S2 & F2); [|exact IH3].
    exists (SList (SAtom (TWord "oneof") :: s1 :: l)). split; [sxs|]. split; [|eauto].
    intros st. rewrite visit_node. pose proof (group_visits domain_callback "(" (PLeaf "oneof") _ ")" st _ _ eq_refl (map_visits domain_callback (fun st => effect (dctx st) true) (_ :: _) (s1 :: l) st (Forall2_cons _ _ V1 F2))) as GV.
    match goal with |- context [visits domain_callback ?x st] => match type of GV with visits _ ?y _ = _ => change x with y end end. rewrite GV. clear GV. cbn [effect String.eqb Ascii.eqb Bool.eqb]. rewrite andb_false_r.
    destruct (mapR (effect (dctx st) true) (s1 :: l)) as [fs|e]; [|reflexivity]. cbn [bind]. rewrite HC. unfold cb_c_effect. cbn [length Nat.eqb arg nth_error bind tok_is String.eqb Ascii.eqb Bool.eqb].
    rewrite inner_list, forms_back. cbn [dctx g_ext]. destruct (check _ _); reflexivity.
  - destruct (t_N _ _ _ _ H) as (e0 & no & cs' & -> & _). apply (p_tree pm an pn t) in H as (s & S1 & V1 & Sh); try assumption.
    2:{ intros x Ix. apply Inc. destruct top; cbn in Ix |- *; tauto. }
    exists s. split; [exact S1|]. split; [|destruct Sh as [(n & args & -> & _)|(args & ->)]; eauto].
    intros st. rewrite visit_node. cbn [visits]. rewrite V1. replace (effect (dctx st) top s) with (p_effect (dctx st) s).
    + destruct (p_effect (dctx st) s); [|reflexivity]. cbn [vf bind]. now rewrite HC.
    + destruct Sh as [(n & args & -> & NT)|(args & ->)]; [|reflexivity]. cbn [effect].
      assert (X : forall k, In k (if top then ["and"; "forall"; "when"; "oneof"] else ["forall"; "when"; "oneof"]) -> String.eqb n k = false).
      { intros k I. apply String.eqb_neq. intros ->. destruct NT as [NT|NT].
        - apply NT, Inc. destruct top; cbn in I |- *; tauto.
        - destruct top; cbn in I, NT; repeat destruct I as [<-|I]; try (destruct I); repeat destruct NT as [NT|NT]; try discriminate; destruct NT. }
      replace (top && String.eqb n "and") with false by (destruct top; [now rewrite X by (cbn; tauto)|reflexivity]).
      rewrite !X by (destruct top; cbn; tauto). reflexivity.
Qed.
Lemma eff_tree p : (forall w nx, TT (N "effect") [p] w nx -> exists s, sx w s /\ is_eff true p s /\ exists x l, s = SList (x :: l)) /\
  (forall w nx, TT (N "c_effect") [p] w nx -> exists s, sx w s /\ is_eff false p s) /\
  (forall w nx, TT (N "c_effect@effect") [p] w nx -> exists s, sx w s /\ is_eff true p s /\ exists x l, s = SList (x :: l)).
Proof.
  induction p as [x|n cs IH|] using ptree_ind'; (split; [|split]); intros w nx H; trule H; inversion Ec; subst; clear Ec.
  - assert (HC : forall args st, call domain_callback "effect" args st = (st, cb_effect args)) by (intros; now rewrite call_plain). talt H.
    + tseq H. subst. rewrite app_nil_r in *. cbn [app] in *. apply t_star in K. inversion IH as [|? ? _ IH1]; subst. inversion IH1 as [|? ? _ IH2]; subst. apply Forall_app in IH2 as [IH2 _].
      apply many_trees with (Q := is_eff false) in K as (l & S1 & F1); [|eapply Forall_impl; [|exact IH2]; intros p Hp; apply Hp].
      exists (SList (SAtom (TWord "and") :: l)). split; [sxs|]. split; [|eauto]. intros st. rewrite visit_node.
      rewrite (group_visits domain_callback "(" (PLeaf "and") _ ")" st _ _ eq_refl (map_visits domain_callback (fun st => effect (dctx st) false) _ _ st F1)).
      cbn [effect andb String.eqb Ascii.eqb Bool.eqb]. destruct (mapR (effect (dctx st) false) l) as [fs|e]; [|reflexivity]. cbn [bind]. rewrite HC. unfold cb_effect.
      cbn [length Nat.eqb arg nth_error bind tok_is String.eqb Ascii.eqb Bool.eqb]. replace (Nat.eqb (length (map VForm fs ++ [VTok ")"])) 0) with false by (symmetry; apply Nat.eqb_neq; rewrite app_length; cbn; lia).
      now rewrite inner_list, forms_back.
    + destruct (t_N _ _ _ _ H) as (e0 & no & cs' & -> & _). inversion IH as [|? ? (_ & _ & P1) _]; subst. apply P1 in H as (s & S1 & V1 & Sh). exists s. split; [exact S1|]. split; [|exact Sh].
      intros st. rewrite visit_node. cbn [visits]. rewrite V1. destruct (effect (dctx st) true s); [|reflexivity]. cbn [vf bind]. now rewrite HC.
  - apply (c_tree false "p_effect@c_effect" "atomic_formula_term@c_effect" "predicate@c_effect" "NAME@c_effect") in H as (s & S1 & V1 & _); try reflexivity; [eauto|cbv; tauto|].
    eapply Forall_impl; [|exact IH]. intros p (Hp & _) w' nx' K. destruct (Hp _ _ K) as (s & S1 & V1 & _). eauto.
  - apply (c_tree true "p_effect@effect" "atomic_formula_term@effect" "predicate@effect" "NAME@effect") in H as (s & S1 & V1 & Sh); try reflexivity; [eauto|cbv; tauto|].
    eapply Forall_impl; [|exact IH]. intros p (Hp & _) w' nx' K. destruct (Hp _ _ K) as (s & S1 & V1 & _). eauto.
Qed.
Lemma d_pre p w nx : TT (N "emptyor_pregd") [p] w nx -> exists s, sx w s /\ forall st, DV p st = (st, vf (emptyor_pregd (dctx st) s)).
Proof.
  intros H. trule H. inversion Ec; subst. assert (HC : forall args st, call domain_callback "emptyor_pregd" args st = (st, cb_emptyor_pregd args)) by (intros; now rewrite call_plain). talt H.
  - tseq H. subst. exists (SList []). split; [sxs|]. intros st. rewrite visit_node. reflexivity.
  - destruct (t_N _ _ _ _ H) as (e0 & no & cs' & -> & _). apply d_gd in H as (s & S1 & V1 & x & l & ->). eexists. split; [exact S1|]. intros st. rewrite visit_node. cbn [visits emptyor_pregd]. rewrite V1.
    destruct (gd (dctx st) (SList (x :: l))); [|reflexivity]. cbn [vf bind]. now rewrite HC.
Qed.
Lemma d_eff p w nx : TT (N "emptyor_effect") [p] w nx -> exists s, sx w s /\ forall st, DV p st = (st, vf (emptyor_effect (dctx st) s)).
Proof.
  intros H. trule H. inversion Ec; subst. assert (HC : forall args st, call domain_callback "emptyor_effect" args st = (st, cb_emptyor_effect args)) by (intros; now rewrite call_plain). talt H.
  - tseq H. subst. exists (SList []). split; [sxs|]. intros st. rewrite visit_node. reflexivity.
  - destruct (t_N _ _ _ _ H) as (e0 & no & cs' & -> & _). apply eff_tree in H as (s & S1 & V1 & x & l & ->). eexists. split; [exact S1|]. intros st. rewrite visit_node. cbn [visits emptyor_effect]. rewrite V1.
    destruct (effect (dctx st) true (SList (x :: l))); [|reflexivity]. cbn [vf bind]. now rewrite HC.
Qed.
