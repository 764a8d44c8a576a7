(** What the trees of conditions are worth: the callbacks compute what Parser.v computes. *)
From Coq Require Import String Ascii List Bool NArith Arith Lia.
From Verif Require Import Py Names Reqs Logic Validation Core Lexer TypedList UpdateTags Parser Py_facts Names_facts Lex_facts
     GD_facts Spec_Grammar Words_facts Grammar_facts GrammarText_facts GrammarAll_facts Lark Spec_Lark LarkMain_facts Callbacks CallTree_facts.
Import ListNotations.
Open Scope string_scope.
Open Scope list_scope.

Ltac sxs :=
  repeat match goal with
         | H : sx _ _ |- _ => destruct H
         | H : sxl _ _ |- _ => destruct H
         end;
  split;
  [ repeat first [progress rewrite ?app_nil_r, ?map_app | progress cbn [map snd app]];
    repeat match goal with H : map snd ?u = _ |- context [map snd ?u] => rewrite H end; repeat (words; rewrite ?wl_app; words)
  | goods ].

Definition vf (r : res form) : res value := let* f := r in Ok (VForm f).
Lemma inner_list a b vs c : inner (a :: b :: vs ++ [c]) = vs.
Proof. unfold inner. cbn [skipn]. apply removelast_last. Qed.
Lemma forms_back fs : mapR as_form (map VForm fs) = Ok fs.
Proof. induction fs as [|f fs IH]; [reflexivity|]. cbn. now rewrite IH. Qed.
Lemma call_plain {St} (cb : string -> list value -> St -> St * res value) n vs st : memb String.eqb n inlined = false -> call cb n vs st = cb n vs st.
Proof. intros H. destruct vs as [|v [|v' vs]]; cbn [call]; rewrite ?H; reflexivity. Qed.
Lemma call_inl {St} (cb : string -> list value -> St -> St * res value) n v st : memb String.eqb n inlined = true -> call cb n [v] st = (st, Ok v).
Proof. intros H. cbn [call]. now rewrite H. Qed.

Section Conditions.
  Context {St : Type}.
  Variable callback : string -> list value -> St -> St * res value.
  Variable ctx : St -> gctx.
  Notation V := (visit VTok VNone (call callback)).
  Notation VS := (visits callback).

  Lemma V_leaf w st : V (PLeaf w) st = (st, Ok (VTok w)).
  Proof. reflexivity. Qed.
  Lemma V_inl n p st r : memb String.eqb n inlined = true -> V p st = (st, r) -> V (PNode n [p]) st = (st, r).
  Proof. intros M H. rewrite visit_node. cbn [visits]. rewrite H. destruct r; [|reflexivity]. cbn [call]. now rewrite M. Qed.
  Lemma group_visits a b ps c st vb rs : V b st = (st, Ok vb) -> VS ps st = (st, rs) ->
    VS (PLeaf a :: b :: ps ++ [PLeaf c]) st = (st, let* vs := rs in Ok (VTok a :: vb :: vs ++ [VTok c])).
  Proof.
    intros B P. rewrite (visits_leaf callback a (b :: ps ++ [PLeaf c]) st (let* vs := rs in Ok (vb :: vs ++ [VTok c]))); [destruct rs; reflexivity|].
    rewrite (visits_cons callback b (ps ++ [PLeaf c]) st (Ok vb) (join rs (Ok [VTok c])) B); [destruct rs; reflexivity|].
    apply visits_join; [exact P|reflexivity].
  Qed.

  (** * Terms *)
  Hypothesis H_constant : forall n st, callback "constant" [VTok n] st = (st, let* t := g_const (ctx st) n in Ok (VTerm t)).
  Definition tval (r : term + string) : value := match r with inl k => VTerm k | inr n => VTok n end.
  Lemma one_term cs w nx : TT (N "term") cs w nx -> exists p l t, cs = [p] /\ sxl w l /\ starts_term l = true /\
    (forall r rs, terms r = Some rs -> terms (l ++ r) = Some (t :: rs)) /\ (forall st, V p st = (st, let* r := resolve (ctx st) t in Ok (tval r))).
  Proof.
    intros H. trule H. subst. talt H; trule H; subst.
    - tword H. subst. eexists _, [SAtom (TWord x)], (PConst x). split; [reflexivity|]. split; [sxs|]. split; [reflexivity|]. split.
      + intros r rs E. cbn [app terms]. now rewrite E.
      + intros st. apply V_inl; [reflexivity|]. rewrite visit_node. cbn [visits visit]. rewrite call_plain, H_constant by reflexivity. cbn [resolve]. destruct (g_const (ctx st) x); reflexivity.
    - tseq H. subst. eexists _, [SAtom QMARK; SAtom (TWord x)], (PVar x). split; [reflexivity|]. split; [sxs|]. split; [reflexivity|]. split.
      + intros r rs E. cbn [app terms]. now rewrite E.
      + intros st. cbn [app]. apply V_inl; [reflexivity|]. apply V_inl; reflexivity.
  Qed.
  Lemma many_terms cs w nx : many (N "term") cs w nx -> exists l ts, sxl w l /\ terms l = Some ts /\
    forall st, VS cs st = (st, let* rs := mapR (resolve (ctx st)) ts in Ok (map tval rs)).
  Proof.
    induction 1 as [nx|c1 c2 u v nx H _ (l & ts & S1 & E & V1)]; [exists [], []; split; [apply sxl_nil|auto]|].
    apply one_term in H as (p & l' & t & -> & S2 & _ & E' & V2). exists (l' ++ l), (t :: ts). split; [now apply sxl_app|]. split; [auto|].
    intros st. cbn [app]. rewrite (visits_cons callback _ _ _ _ _ (V2 st) (V1 st)). cbn [mapR]. destruct (resolve (ctx st) t); [|reflexivity]. cbn [bind]. destruct (mapR (resolve (ctx st)) ts); reflexivity.
  Qed.
  Lemma covs st rs : mapR (cb_constant_or_variable (g_params (ctx st))) (map tval rs) = mapR (constant_or_variable (ctx st)) rs.
  Proof.
    induction rs as [|[k|n] rs IH]; [reflexivity| |]; cbn [map mapR tval cb_constant_or_variable constant_or_variable]; rewrite IH; reflexivity.
  Qed.
  Lemma cov st r : cb_constant_or_variable (g_params (ctx st)) (tval r) = constant_or_variable (ctx st) r.
  Proof. destruct r; reflexivity. Qed.

  (** * Atoms *)
  Hypothesis H_atomic : forall args st, callback "atomic_formula_term" args st = (st, cb_atomic_formula_term (g_ext (ctx st)) (g_params (ctx st)) args).
  Lemma name_not_op x o : matches Name x -> In o ["="; ">"; ">="; "<"; "<="; "+"; "-"; "*"; "/"] -> String.eqb x o = false.
  Proof.
    intros (c & r & -> & Lc & _) I. apply String.eqb_neq. intros E. destruct Lc as [[A B]|[A B]];
      (repeat destruct I as [<-|I]; [..|destruct I]); inversion E; subst; vm_compute in A, B; lia.
  Qed.
  Lemma atomic_tree nm pn t p w nx : rules_of nm = [(nm, atomic_at pn, [])] -> rules_of pn = [(pn, T t, [])] ->
    base nm = "atomic_formula_term" -> base pn = "predicate" -> base t = "NAME" -> dropped t = false -> TT (N nm) [p] w nx ->
    exists s, sx w s /\ (forall st, V p st = (st, vf (atomic_formula_term (ctx st) s))) /\
      ((exists n args, s = SList (SAtom (TWord n) :: args) /\ ~ In n (taken t)) \/ (exists args, s = SList (SAtom (TOp "=") :: args) /\ starts_term args = true)).
  Proof.
    intros R1 R2 B1 B2 B3 Dr H. apply (t_rule _ _ _ _ _ _ R1) in H as (cs & E & _ & H). rewrite B1 in E. inversion E; subst. unfold atomic_at in H. talt H; tseq H; subst.
    - apply (t_rule _ _ _ _ _ _ R2) in K as (cs & -> & _ & K). rewrite B2. apply (t_name _ _ _ _ B3 Dr) in K as (x & -> & -> & M & NT).
      apply t_star in K0. apply many_terms in K0 as (l & ts & S1 & E1 & V1). exists (SList (SAtom (TWord x) :: l)). split; [sxs|]. split; [|left; eauto].
      intros st. cbn [app]. rewrite visit_node, (group_visits "(" _ _ ")" st _ _ (V_inl "predicate" (PLeaf x) st _ eq_refl eq_refl) (V1 st)).
      cbn [atomic_formula_term atomic_pred]. unfold atomic_pred. rewrite E1. cbn [of_opt bind]. destruct (mapR (resolve (ctx st)) ts) as [rs|e]; [|reflexivity]. cbn [bind].
      rewrite call_plain, H_atomic by reflexivity. unfold cb_atomic_formula_term. cbn [arg nth_error bind tok_is]. rewrite (name_not_op x "=" M) by (cbn; tauto).
      rewrite inner_list, covs. cbn [as_str bind]. destruct (mapR (constant_or_variable (ctx st)) rs) as [ks|]; [|reflexivity]. cbn [bind]. destruct (mk_pred x ks); reflexivity.
    - apply one_term in K as (p1 & l1 & t1 & -> & S1 & St1 & E1 & V1). apply one_term in K0 as (p2 & l2 & t2 & -> & S2 & St2 & E2 & V2).
      exists (SList (SAtom (TOp "=") :: l1 ++ l2)). split; [sxs|]. split; [|right; exists (l1 ++ l2); split; [reflexivity|]; destruct l1 as [|[[]|] ?]; try discriminate; reflexivity].
      assert (Et : terms (l1 ++ l2) = Some [t1; t2]) by (apply E1; rewrite <- (app_nil_r l2); now apply E2).
      intros st. cbn [app atomic_formula_term]. unfold atomic_eq. rewrite Et. cbn [String.eqb Ascii.eqb Bool.eqb].
      assert (VV : VS [p1; p2] st = (st, let* a := resolve (ctx st) t1 in let* b := resolve (ctx st) t2 in Ok [tval a; tval b])).
      { rewrite (visits_cons callback _ _ _ _ _ (V1 st) (visits_one callback _ _ _ (V2 st))). destruct (resolve (ctx st) t1); [|reflexivity]. destruct (resolve (ctx st) t2); reflexivity. }
      pose proof (group_visits "(" (PLeaf "=") _ ")" st _ _ eq_refl VV) as GV. cbn [app] in GV. rewrite visit_node, GV.
      destruct (resolve (ctx st) t1) as [r1|e]; [|reflexivity]. cbn [bind]. destruct (resolve (ctx st) t2) as [r2|e]; [|reflexivity]. cbn [bind app].
      rewrite call_plain, H_atomic by reflexivity. unfold cb_atomic_formula_term. cbn [arg nth_error bind tok_is String.eqb Ascii.eqb Bool.eqb]. rewrite !cov.
      destruct (check (has EQUALITY (g_ext (ctx st))) (PDDLMissingRequirementError EQUALITY)); [|reflexivity]. cbn [bind].
      destruct (constant_or_variable (ctx st) r1) as [k1|e]; [|reflexivity]. cbn [bind]. destruct (constant_or_variable (ctx st) r2) as [k2|e]; [|reflexivity]. cbn [bind].
      destruct (mk_eq k1 k2); reflexivity.
  Qed.

  (** * Arithmetic expressions *)
  Lemma arith_tree E (F : St -> sexp -> res form) : base E = E -> (forall args st, call callback E args st = (st, cb_f_exp args)) ->
    (forall st o args, F st (SList (SAtom (TOp o) :: args)) = match arith_op o (length args) with Some k => let* ops := mapR (F st) args in Ok (mk_binfun k ops) | None => syntax end) ->
    forall e cs w nx, In e [Seq [L; N "binary_op"; N E; N E; R]; Seq [L; N "multi_op"; N E; Plus (N E); R]; Seq [L; T "MINUS"; N E; R]] -> TT e cs w nx ->
    Forall (fun p => forall w nx, TT (N E) [p] w nx -> exists s, sx w s /\ forall st, V p st = (st, vf (F st s))) cs ->
    exists l, sx w (SList l) /\ forall st, V (PNode E cs) st = (st, vf (F st (SList l))).
  Proof.
    intros BE HE HF e cs w nx I H IH.
    assert (Fin : forall b ps u l o k t, cs = PLeaf "(" :: b :: ps ++ [PLeaf ")"] -> w = ("LPAR", "(") :: (t, o) :: u ++ [("RPAR", ")")] ->
      sxl u l -> Forall2 (fun p s => forall st, V p st = (st, vf (F st s))) ps l -> (forall st, V b st = (st, Ok (VTok o))) ->
      arith_op o (length l) = Some k -> In o ["+"; "*"; "/"; "-"] -> exists l, sx w (SList l) /\ forall st, V (PNode E cs) st = (st, vf (F st (SList l)))).
    { intros b ps u l o k t -> -> S1 F2 Vb A Io. exists (SAtom (TOp o) :: l). split; [sxs; apply op_good; cbn in *; tauto|].
      intros st. rewrite visit_node. rewrite (group_visits "(" b ps ")" st (VTok o) (let* fs := mapR (F st) l in Ok (map VForm fs))); [|apply Vb|].
      2:{ apply visits_map. clear - F2. induction F2 as [|p s ps l Hp _ IHF]; constructor; [apply Hp|exact IHF]. }
      rewrite HF, A. destruct (mapR (F st) l) as [fs|e'] eqn:Em; [|reflexivity]. cbn [bind]. rewrite HE. unfold cb_f_exp. cbn [length Nat.eqb arg nth_error bind tok_is]. rewrite inner_list, forms_back.
      cbn [bind vf]. destruct Io as [<-|[<-|[<-|[<-|[]]]]]; cbn in A |- *.
      - destruct l as [|? [|? ?]]; try discriminate; inversion A; reflexivity.
      - destruct l as [|? [|? ?]]; try discriminate; inversion A; reflexivity.
      - destruct (Nat.eqb (length l) 2); inversion A; reflexivity.
      - destruct (Nat.eqb (length l) 1); inversion A; reflexivity. }
    (repeat destruct I as [<-|I]; [..|destruct I]); tseq H; subst.
    - trule K. subst. tword K. subst. destruct (t_N _ _ _ _ K0) as (e0 & no & cs' & -> & _). destruct (t_N _ _ _ _ K1) as (e1 & no1 & cs1 & -> & _).
      cbn [app] in IH. inversion IH as [|? ? _ IH1]; subst. inversion IH1 as [|? ? _ IH2]; subst. inversion IH2 as [|? ? P1 IH3]; subst. inversion IH3 as [|? ? P2 _]; subst.
      apply P1 in K0 as (s1 & S1 & V1). apply P2 in K1 as (s2 & S2 & V2).
      match goal with A : sx ?a s1, B : sx ?b s2 |- _ => eapply (Fin (PNode "binary_op" [PLeaf "/"]) [_; _] (a ++ b) [s1; s2] "/" BDivide "DIVIDE") end; try reflexivity.
      + rewrite app_nil_r. cbn [app]. now rewrite <- !app_assoc.
      + apply sxl_cons; [assumption|now apply sxl_one].
      + repeat constructor; assumption.
      + cbn; tauto.
    - trule K. subst. apply t_plus in K1 as (a1 & a2 & b1 & b2 & -> & -> & K1 & K2). destruct (t_N _ _ _ _ K0) as (e0 & no & cs' & -> & _). destruct (t_N _ _ _ _ K1) as (e1 & no1 & cs1 & -> & _).
      cbn [app] in IH. inversion IH as [|? ? _ IH1]; subst. inversion IH1 as [|? ? _ IH2]; subst. inversion IH2 as [|? ? P1 IH3]; subst. inversion IH3 as [|? ? P2 IH4]; subst. apply Forall_app in IH4 as [IH4 _].
      apply P1 in K0 as (s1 & S1 & V1). apply P2 in K1 as (s2 & S2 & V2). apply many_trees with (Q := fun p s => forall st, V p st = (st, vf (F st s))) in K2 as (l & S3 & V3); [|exact IH4].
      assert (X : exists o t k, cs = [PLeaf o] /\ u0 = [(t, o)] /\ In o ["+"; "*"; "/"; "-"] /\ forall l, arith_op o (S (S l)) = Some k).
      { talt K; tword K; subst; [exists "*", "TIMES", BTimes|exists "+", "PLUS", BPlus]; (split; [reflexivity|]; split; [reflexivity|]; split; [cbn; tauto|reflexivity]). }
      destruct X as (o & t & k & -> & -> & Io & A).
      match goal with A : sx ?a s1, B : sx ?b s2, C : sxl ?c l |- _ => eapply (Fin (PNode "multi_op" [PLeaf o]) (_ :: _ :: _) (a ++ b ++ c) (s1 :: s2 :: l) o k t) end.
      + rewrite app_nil_r. reflexivity.
      + rewrite app_nil_r. cbn [app]. now rewrite <- !app_assoc.
      + apply sxl_cons; [assumption|now apply sxl_cons].
      + apply Forall2_cons; [exact V1|]. apply Forall2_cons; [exact V2|exact V3].
      + intros st. now apply V_inl.
      + apply A.
      + exact Io.
    - destruct (t_N _ _ _ _ K) as (e0 & no & cs' & -> & _).
      cbn [app] in IH. inversion IH as [|? ? _ IH1]; subst. inversion IH1 as [|? ? _ IH2]; subst. inversion IH2 as [|? ? P1 IH3]; subst. apply P1 in K as (s1 & S1 & V1).
      match goal with A : sx ?a s1 |- _ => eapply (Fin (PLeaf "-") [_] a [s1] "-" BMinus "MINUS") end; try reflexivity.
      + now apply sxl_one.
      + repeat constructor; assumption.
      + cbn; tauto.
  Qed.

  (** * Function expressions *)
  Hypothesis H_num : forall args st, callback "num_literal" args st = (st, cb_num_literal args).
  Hypothesis H_head : forall args st, callback "f_head" args st = (st, cb_f_head (g_params (ctx st)) args).
  Hypothesis H_exp : forall args st, callback "f_exp" args st = (st, cb_f_exp args).
  Lemma num_tree p w nx : TT (N "num_literal") [p] w nx -> exists n, p = PNode "num_literal" [PLeaf n] /\ w = [("NUMBER", n)] /\ number n /\
    forall st, V p st = (st, let* v := num_literal n in Ok (VNum v)).
  Proof.
    intros H. trule H. inversion Ec; subst. tword H. subst. exists x. repeat split; auto. intros st. rewrite visit_node. cbn [visits visit]. rewrite call_plain, H_num by reflexivity. reflexivity.
  Qed.
  Lemma head_tree p w nx : TT (N "f_head") [p] w nx -> exists s, sx w s /\ (forall st, V p st = (st, vf (f_head (ctx st) s))) /\
    ((exists n, s = SAtom (TWord n) /\ w = [("NAME", n)]) \/ (exists n l, s = SList (SAtom (TWord n) :: l))).
  Proof.
    intros H. trule H. inversion Ec; subst. talt H.
    - tword H. subst. exists (SAtom (TWord x)). split; [split; [reflexivity|good1]|]. split; [|left; eauto]. intros st. rewrite visit_node. cbn [visits visit]. rewrite call_plain, H_head by reflexivity. reflexivity.
    - tseq H. subst. apply t_star in K. apply many_terms in K as (l & ts & S1 & E1 & V1). exists (SList (SAtom (TWord x) :: l)). split; [sxs|]. split; [|right; eauto].
      intros st. cbn [app]. rewrite visit_node, (group_visits "(" (PLeaf x) _ ")" st _ _ eq_refl (V1 st)).
      cbn [f_head]. rewrite E1. cbn [of_opt bind]. destruct (mapR (resolve (ctx st)) ts) as [rs|e]; [|reflexivity]. cbn [bind].
      rewrite call_plain, H_head by reflexivity. unfold cb_f_head. cbn [length Nat.eqb arg nth_error bind].
      replace (Nat.eqb (length (map tval rs ++ [VTok ")"])) 0) with false by (symmetry; apply Nat.eqb_neq; rewrite app_length; cbn; lia).
      rewrite inner_list, covs. cbn [as_str bind]. destruct (mapR (constant_or_variable (ctx st)) rs) as [ks|]; [|reflexivity]. cbn [bind]. destruct (mk_numfun x ks); reflexivity.
  Qed.
  Lemma f_head_numfun c s f : f_head c s = Ok f -> exists n ts, f = FNumFun n ts.
  Proof.
    assert (X : forall n ts, mk_numfun n ts = Ok f -> exists n ts, f = FNumFun n ts).
    { intros n ts H. unfold mk_numfun in H. destruct (parse_function n); [|discriminate]. cbn in H. inversion H. eauto. }
    intros H. destruct s as [[]|[|[[]|] l]]; cbn in H; try discriminate; eauto.
    destruct (terms l) as [l0|]; [|discriminate]. cbn in H. destruct (mapR _ l0) as [l1|]; [|discriminate]. cbn in H. destruct (mapR _ l1); [|discriminate]. eauto.
  Qed.
  Lemma exp_tree p : forall w nx, TT (N "f_exp") [p] w nx -> exists s, sx w s /\ (forall st, V p st = (st, vf (f_exp (ctx st) s))) /\
    (starts_term [s] = true -> fst (next w nx) = "NAME").
  Proof.
    induction p as [x|n cs IH|] using ptree_ind'; intros w nx H; trule H; inversion Ec; subst.
    assert (HE : forall args st, call callback "f_exp" args st = (st, cb_f_exp args)) by (intros; rewrite call_plain; auto).
    assert (IH' : Forall (fun p => forall w nx, TT (N "f_exp") [p] w nx -> exists s, sx w s /\ forall st, V p st = (st, vf (f_exp (ctx st) s))) cs0).
    { apply Forall_forall. intros p Ip w' nx' K. rewrite Forall_forall in IH. destruct (IH p Ip _ _ K) as (s & S1 & V1 & _). eauto. }
    pose proof (arith_tree "f_exp" (fun st => f_exp (ctx st)) eq_refl HE (fun _ _ _ => eq_refl)) as AR.
    talt H.
    - destruct (t_N _ _ _ _ H) as (e0 & no & cs' & -> & _). apply num_tree in H as (n & _ & -> & Nn & Vn). exists (SAtom (TNum n)). split; [split; [reflexivity|good1]|]. split; [|discriminate].
      intros st. rewrite visit_node. cbn [visits]. rewrite Vn. cbn [f_exp vf]. destruct (num_literal n); [|reflexivity]. cbn [bind]. rewrite HE. reflexivity.
    - eapply AR in H as (l & S1 & V1); [|left; reflexivity|exact IH']. exists (SList l). split; [exact S1|]. split; [exact V1|discriminate].
    - eapply AR in H as (l & S1 & V1); [|right; left; reflexivity|exact IH']. exists (SList l). split; [exact S1|]. split; [exact V1|discriminate].
    - eapply AR in H as (l & S1 & V1); [|right; right; left; reflexivity|exact IH']. exists (SList l). split; [exact S1|]. split; [exact V1|discriminate].
    - destruct (t_N _ _ _ _ H) as (e0 & no & cs' & -> & _). apply head_tree in H as (s & S1 & V1 & Sh). exists s. split; [exact S1|]. split.
      + intros st. rewrite visit_node. cbn [visits]. rewrite V1. replace (f_exp (ctx st) s) with (f_head (ctx st) s) by (destruct Sh as [(m & -> & _)|(m & l & ->)]; reflexivity).
        destruct (f_head (ctx st) s) as [f|e] eqn:Ef; [|reflexivity]. cbn [vf bind]. rewrite HE. apply f_head_numfun in Ef as (m & ts & ->). reflexivity.
      + destruct Sh as [(m & -> & ->)|(m & l & ->)]; [reflexivity|discriminate].
  Qed.

  (** * Conditions *)
  Hypothesis H_gd : forall args st, callback "gd" args st = (st, cb_gd (g_ext (ctx st)) args).
  Hypothesis H_vars : forall p w nx, TT (N "typed_list_variable") [p] w nx -> exists l, sxl w l /\ forall st, exists r, V p st = (st, r) /\
    match g_vars (ctx st) l with Ok tl => exists v, r = Ok v /\ (v = VVars tl \/ g_ext (ctx st) = []) | Err e => r = Err e end.
  Definition is_gd (p : ptree) (s : sexp) : Prop := forall st, V p st = (st, vf (gd (ctx st) s)).
  Lemma map_visits (F : St -> sexp -> res form) ps l st : Forall2 (fun p s => forall st, V p st = (st, vf (F st s))) ps l -> VS ps st = (st, let* fs := mapR (F st) l in Ok (map VForm fs)).
  Proof. intros H. apply visits_map. induction H as [|p s ps l Hp _ IH]; constructor; [apply Hp|exact IH]. Qed.
  Lemma gd_name c n args : ~ In n gd_words -> gd c (SList (SAtom (TWord n) :: args)) = atomic_pred c n args.
  Proof.
    intros H. cbn [gd]. assert (X : forall k, In k gd_words -> String.eqb n k = false) by (intros k I; apply String.eqb_neq; intros ->; auto).
    rewrite !X by (cbn; tauto). reflexivity.
  Qed.
  Lemma not_empty_word w : ~ word_at "" w.
  Proof. intros [(p & I & _) _]. apply (NoDup_assoc _ _ _ terminals_nodup) in I. discriminate. Qed.
  Lemma comp_tree cs w nx : TT (N "binary_comp") cs w nx -> exists o t k, cs = [PNode "binary_comp" [PLeaf o]] /\ w = [(t, o)] /\ In o [">"; "<"; ">="; "<="; "="] /\ comparison o = Some k /\ (o = "=" -> fst nx <> "NAME").
  Proof.
    intros H. apply t_N in H as (e & no & cs' & -> & I & A & H). vm_compute in I. destruct I as [I|[I|[]]]; inversion I; subst; clear I.
    - talt H; tword H; subst; repeat eexists; try (cbn; tauto); discriminate.
    - tword H. subst. exists "=", "EQUAL_OP", BEqual. repeat split; try (cbn; tauto). intros _ E. exact (not_empty_word _ (A "NAME" "" (or_introl eq_refl) E)).
  Qed.
  Lemma gd_tree p : forall w nx, TT (N "gd") [p] w nx -> exists s, sx w s /\ is_gd p s /\ exists x l, s = SList (x :: l).
  Proof.
    induction p as [x|n cs IH|] using ptree_ind'; intros w nx H; trule H; inversion Ec; subst.
    assert (IH' : Forall (fun p => forall w nx, TT (N "gd") [p] w nx -> exists s, sx w s /\ is_gd p s) cs0).
    { apply Forall_forall. intros p Ip w' nx' K. rewrite Forall_forall in IH. destruct (IH p Ip _ _ K) as (s & S1 & V1 & _). eauto. }
    assert (HG : forall args st, call callback "gd" args st = (st, cb_gd (g_ext (ctx st)) args)) by (intros; rewrite call_plain; auto).
    clear IH Ec Al.
    assert (Grp : forall k ps l st r, Forall2 is_gd ps l -> gd (ctx st) (SList (SAtom (TWord k) :: l)) = (let* fs := mapR (gd (ctx st)) l in r fs) ->
      (forall fs, length fs = length l -> cb_gd (g_ext (ctx st)) (VTok "(" :: VTok k :: map VForm fs ++ [VTok ")"]) = vf (r fs)) ->
      V (PNode "gd" (PLeaf "(" :: PLeaf k :: ps ++ [PLeaf ")"])) st = (st, vf (gd (ctx st) (SList (SAtom (TWord k) :: l))))).
    { intros k ps l st r F Eg Er. rewrite visit_node. pose proof (group_visits "(" (PLeaf k) _ ")" st _ _ eq_refl (map_visits (fun st => gd (ctx st)) _ _ st F)) as GV.
      rewrite GV, Eg. destruct (mapR (gd (ctx st)) l) as [fs|e] eqn:Em; [|reflexivity]. cbn [bind]. rewrite HG. f_equal. apply Er. apply mapR_Ok in Em. symmetry. clear - Em. induction Em; cbn; congruence. }
    talt H.
    - (* atom *)
      destruct (t_N _ _ _ _ H) as (e0 & no & cs' & -> & _). apply (atomic_tree "atomic_formula_term@gd" "predicate@gd" "NAME@gd") in H as (s & S1 & V1 & Sh); try reflexivity.
      exists s. split; [exact S1|]. split; [|destruct Sh as [(n & args & -> & _)|(args & -> & _)]; eauto].
      intros st. rewrite visit_node. cbn [visits]. rewrite V1. replace (gd (ctx st) s) with (atomic_formula_term (ctx st) s).
      + destruct (atomic_formula_term (ctx st) s); [|reflexivity]. cbn [vf bind]. rewrite HG. reflexivity.
      + destruct Sh as [(n & args & -> & NT)|(args & -> & St0)]; [now rewrite gd_name|]. cbn [gd atomic_formula_term String.eqb Ascii.eqb Bool.eqb]. now rewrite St0.
    - (* or *)
      tseq H. subst. apply t_star in K. rewrite app_nil_r in *. cbn [app] in *. inversion IH' as [|? ? _ IH1]; subst. inversion IH1 as [|? ? _ IH2]; subst. apply Forall_app in IH2 as [IH2 _].
      apply many_trees with (Q := is_gd) in K as (l & S1 & F1); [|exact IH2]. exists (SList (SAtom (TWord "or") :: l)). split; [sxs|]. split; [|eauto].
      intros st. eapply Grp; [exact F1|reflexivity|]. intros fs _. unfold cb_gd. cbn [length Nat.eqb arg nth_error bind tok_is String.eqb Ascii.eqb Bool.eqb]. unfold cb_gd_or. rewrite inner_list, forms_back.
      destruct (check _ _); reflexivity.
    - (* not *)
      tseq H. subst. rewrite app_nil_r in *. cbn [app] in *. destruct (t_N _ _ _ _ K) as (e0 & no & cs' & -> & _). cbn [app] in *.
      inversion IH' as [|? ? _ IH1]; subst. inversion IH1 as [|? ? _ IH2]; subst. inversion IH2 as [|? ? P1 _]; subst. apply P1 in K as (s1 & S1 & V1).
      exists (SList [SAtom (TWord "not"); s1]). split; [sxs|]. split; [|eauto]. intros st.
      apply (Grp "not" [_] [s1] st (fun fs => match fs with [f] => Ok (mk_not f) | _ => Err TypeError end)); [repeat constructor; assumption| |].
      + cbn [gd mapR String.eqb Ascii.eqb Bool.eqb]. destruct (gd (ctx st) s1); reflexivity.
      + intros [|f [|? ?]] Hl; try discriminate. reflexivity.
    - (* and *)
      tseq H. subst. apply t_star in K. rewrite app_nil_r in *. cbn [app] in *. inversion IH' as [|? ? _ IH1]; subst. inversion IH1 as [|? ? _ IH2]; subst. apply Forall_app in IH2 as [IH2 _].
      apply many_trees with (Q := is_gd) in K as (l & S1 & F1); [|exact IH2]. exists (SList (SAtom (TWord "and") :: l)). split; [sxs|]. split; [|eauto].
      intros st. eapply Grp; [exact F1|reflexivity|]. intros fs _. unfold cb_gd. cbn [length Nat.eqb arg nth_error bind tok_is String.eqb Ascii.eqb Bool.eqb]. unfold cb_gd_and. now rewrite inner_list, forms_back.
    - (* imply *)
      tseq H. subst. rewrite app_nil_r in *. cbn [app] in *. destruct (t_N _ _ _ _ K) as (e0 & no & cs' & -> & _). destruct (t_N _ _ _ _ K0) as (e1 & no1 & cs1 & -> & _). cbn [app] in *.
      inversion IH' as [|? ? _ IH1]; subst. inversion IH1 as [|? ? _ IH2]; subst. inversion IH2 as [|? ? P1 IH3]; subst. inversion IH3 as [|? ? P2 _]; subst.
      apply P1 in K as (s1 & S1 & V1). apply P2 in K0 as (s2 & S2 & V2).
      exists (SList [SAtom (TWord "imply"); s1; s2]). split; [sxs|]. split; [|eauto]. intros st.
      apply (Grp "imply" [_; _] [s1; s2] st (fun fs => match fs with [f; g] => check (any_req [DIS_PRECONDITION; ADL] (g_ext (ctx st))) (PDDLMissingRequirementError DIS_PRECONDITION) ;; Ok (mk_bin OImply [f; g]) | _ => Err TypeError end)); [repeat constructor; assumption| |].
      + cbn [gd mapR String.eqb Ascii.eqb Bool.eqb]. destruct (gd (ctx st) s1); [|reflexivity]. destruct (gd (ctx st) s2); reflexivity.
      + intros [|f [|g [|? ?]]] Hl; try discriminate. unfold cb_gd. cbn [map app length Nat.eqb arg nth_error bind tok_is String.eqb Ascii.eqb Bool.eqb]. unfold cb_gd_imply. destruct (check _ _); reflexivity.
    - (* exists *)
      tseq H. subst. rewrite app_nil_r in *. cbn [app] in *. destruct (t_N _ _ _ _ K) as (e0 & no & cs' & -> & _). destruct (t_N _ _ _ _ K0) as (e1 & no1 & cs1 & -> & _). cbn [app] in *.
      do 5 (inversion IH' as [|? ? _ IH1]; subst; clear IH'; rename IH1 into IH'). inversion IH' as [|? ? P2 _]; subst.
      apply H_vars in K as (vs & S1 & V1). apply P2 in K0 as (s2 & S2 & V2).
      exists (SList [SAtom (TWord "exists"); SList vs; s2]). split; [sxs|]. split; [|eauto].
      intros st. destruct (V1 st) as (r & Vr & Er). rewrite visit_node. cbn [visits]. rewrite !V_leaf, Vr. cbn [gd String.eqb Ascii.eqb Bool.eqb orb].
      destruct (g_vars (ctx st) vs) as [tl|e]; [|rewrite Er; reflexivity]. destruct Er as (v & -> & Hv). cbn beta iota. rewrite V_leaf. cbn beta iota. rewrite V2. cbn [bind]. destruct (gd (ctx st) s2) as [f|e]; [|reflexivity]. cbn [vf bind]. rewrite ?V_leaf, HG. f_equal.
      unfold cb_gd. cbn [length Nat.eqb arg nth_error bind tok_is String.eqb Ascii.eqb Bool.eqb orb]. unfold cb_gd_quantifiers. cbn [arg nth_error bind tok_is String.eqb Ascii.eqb Bool.eqb].
      destruct Hv as [->| ->]; [|reflexivity]. cbn [as_vars bind]. destruct (check _ _); [|reflexivity]. cbn [bind]. destruct (mk_vars tl); reflexivity.
    - (* forall *)
      tseq H. subst. rewrite app_nil_r in *. cbn [app] in *. destruct (t_N _ _ _ _ K) as (e0 & no & cs' & -> & _). destruct (t_N _ _ _ _ K0) as (e1 & no1 & cs1 & -> & _). cbn [app] in *.
      do 5 (inversion IH' as [|? ? _ IH1]; subst; clear IH'; rename IH1 into IH'). inversion IH' as [|? ? P2 _]; subst.
      apply H_vars in K as (vs & S1 & V1). apply P2 in K0 as (s2 & S2 & V2).
      exists (SList [SAtom (TWord "forall"); SList vs; s2]). split; [sxs|]. split; [|eauto].
      intros st. destruct (V1 st) as (r & Vr & Er). rewrite visit_node. cbn [visits]. rewrite !V_leaf, Vr. cbn [gd String.eqb Ascii.eqb Bool.eqb orb].
      destruct (g_vars (ctx st) vs) as [tl|e]; [|rewrite Er; reflexivity]. destruct Er as (v & -> & Hv). cbn beta iota. rewrite V_leaf. cbn beta iota. rewrite V2. cbn [bind]. destruct (gd (ctx st) s2) as [f|e]; [|reflexivity]. cbn [vf bind]. rewrite ?V_leaf, HG. f_equal.
      unfold cb_gd. cbn [length Nat.eqb arg nth_error bind tok_is String.eqb Ascii.eqb Bool.eqb orb]. unfold cb_gd_quantifiers. cbn [arg nth_error bind tok_is String.eqb Ascii.eqb Bool.eqb].
      destruct Hv as [->| ->]; [|reflexivity]. cbn [as_vars bind]. destruct (check _ _); [|reflexivity]. cbn [bind]. destruct (mk_vars tl); reflexivity.
    - (* comparison *)
      tseq H. subst. rewrite app_nil_r in *. cbn [app] in *. destruct (t_N _ _ _ _ K0) as (e0 & no & cs' & -> & _). destruct (t_N _ _ _ _ K1) as (e1 & no1 & cs1 & -> & _).
      apply exp_tree in K0 as (s1 & S1 & V1 & N1). apply exp_tree in K1 as (s2 & S2 & V2 & _). apply comp_tree in K as (o & t & k & -> & -> & Io & Ek & Nx). cbn [app].
      exists (SList [SAtom (TOp o); s1; s2]). split; [sxs; apply op_good; cbn in *; tauto|]. split; [|eauto].
      assert (Ns : String.eqb o "=" && starts_term [s1; s2] = false).
      { destruct (String.eqb_spec o "=") as [->|]; [|reflexivity]. destruct (starts_term [s1; s2]) eqn:Est; [|reflexivity]. exfalso. apply (Nx eq_refl). rewrite next_app. apply N1. destruct s1 as [[]|]; try discriminate; reflexivity. }
      intros st. rewrite visit_node. cbn [visits]. rewrite !V_leaf, (V_inl "binary_comp" (PLeaf o) st _ eq_refl eq_refl), V1. cbn [gd]. rewrite Ns, Ek.
      destruct (f_exp (ctx st) s1) as [f|e]; [|reflexivity]. cbn [vf bind]. rewrite V2. destruct (f_exp (ctx st) s2) as [g|e]; [|reflexivity]. cbn [vf bind]. rewrite ?V_leaf. cbn beta iota. rewrite HG. f_equal.
      clear - Io Ek. destruct Io as [<-|[<-|[<-|[<-|[<-|[]]]]]]; vm_compute in Ek; inversion Ek; subst; reflexivity.
  Qed.
End Conditions.
