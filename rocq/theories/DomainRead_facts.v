(** Printed domains: the whole text and what it parses to. *)
From Coq Require Import String List Bool Arith ZArith Lia Permutation Relations.
From Verif Require Import Py Names Reqs Logic Built Validation Core Lexer Show TypedList Parser UpdateTags.
From Verif Require Import Spec Spec_Core Spec_Parse Spec_Print Spec_Text Spec_Features Spec_Domain.
From Verif Require Import Py_facts Names_facts Logic_facts NF_facts Order_facts CoreEq_facts Validation_facts Core_facts
  TypedList_facts Parse_facts Lex_facts Layout_facts Text_facts Print_facts Types_facts Vars_facts NumShow_facts
  FormText_facts Domain_facts Feature_facts ProblemText_facts Scope_facts DomainText_facts Derived_facts2.
Import ListNotations.
Open Scope string_scope.
Open Scope list_scope.

(** ** the text of derived predicates and actions *)
Lemma piece_join {A} (f : A -> string) (g : A -> sexp) l : Forall (fun x => piece (f x) [g x]) l ->
  piece (join " " (map f l)) (map g l).
Proof.
  induction l as [|x l IH]; intros F; [apply piece_nil|]. inversion F as [|? ? P F']; subst.
  cbn [map]. destruct l as [|y l]; [exact P|].
  change (join " " (f x :: map f (y :: l))) with (f x +++ " " +++ join " " (map f (y :: l))).
  apply (piece_app _ [g x]); auto. specialize (IH F'). destruct IH as [R Q]. split; [now apply rx_space|].
  rewrite run_app. cbn [fst run]. exact Q.
Qed.
Lemma piece_collection {A} (f : A -> string) (g : A -> sexp) l : Forall (fun x => piece (f x) [g x]) l ->
  piece (sort_and_print_collection "" (map f l) "" false) (map g (sorted_by f l)).
Proof.
  intros F. unfold sort_and_print_collection. destruct l as [|x l]; [apply piece_nil|].
  cbn [map]. change (f x :: map f l) with (map f (x :: l)).
  cbn [String.append]. rewrite append_nil_r. rewrite sort_str_map. apply piece_join. now apply sorted_by_Forall.
Qed.

Definition derived_sx (x : derived) : sexp :=
  SList [SAtom (TKw ":derived"); pred_sx (dp_name x, dp_terms x); form_sx (bare (dp_cond x))].
Definition action_sx (a : action) : sexp :=
  SList [SAtom (TKw ":action"); name_sx (a_name a); SAtom (TKw ":parameters");
         SList (flat_map plain_sx (vars_of (a_params a)));
         SAtom (TKw ":precondition"); match a_pre a with Some f => form_sx f | None => SList [] end;
         SAtom (TKw ":effect"); match a_eff a with Some f => form_sx f | None => SList [] end].
Lemma piece_derived d x : derived_expressible d x -> piece (show_derived x) [derived_sx x].
Proof.
  intros (vs & ts & E & N & L & R & U & _ & _ & _ & _ & C & _).
  apply (piece_line _ ("(" +++ ":derived" +++ " " +++ (print_predicates [(dp_name x, dp_terms x)] +++ " "
                        +++ show_form (dp_cond x)) +++ ")")); [|unfold show_derived; str].
  apply rx_node; [rx_lit|]. apply (rx_two _ _ [_]).
  - apply (rx_predicates [(dp_name x, dp_terms x)]). constructor; [|constructor]. exists vs. auto.
  - rewrite <- show_bare. apply rx_form. now apply (condition_readable (known d [])).
Qed.
Lemma piece_action d a : action_expressible d a -> piece (show_action a +++ nl) [action_sx a].
Proof.
  intros (vs & pre & eff & E & N & (L & _) & _ & _ & C & _ & F). destruct a as [n ps p e]. cbn [a_name] in *.
  injection E as -> -> ->.
  apply (piece_line _ (show_action (mkAction n (map TVar vs) (Some pre) (Some eff)))); auto.
  unfold show_action, action_sx. cbn [a_name a_params a_pre a_eff]. rewrite vars_of_map.
  apply (rx_group _ (":action" +++ " " +++ n +++ nl +++ "    :parameters" +++ " " +++ ("(" +++ typed_parameters (map TVar vs) +++ ")")
     +++ nl +++ "    :precondition" +++ " " +++ show_form pre +++ nl +++ "    :effect" +++ " " +++ show_form eff +++ nl));
    [|repeat (progress (cbn [String.append]; rewrite ?append_assoc)); reflexivity].
  apply (rx_two _ _ [_]); [rx_lit|]. apply (rx_app _ _ [_]); [now apply rx_name| |cbn; auto]. apply rx_nl.
  apply (rx_two _ _ [_]); [rx_lit|]. apply (rx_app _ _ [_]); [apply rx_paren; now apply rx_params| |cbn; auto]. apply rx_nl.
  apply (rx_two _ _ [_]); [rx_lit|].
  apply (rx_app _ _ [_]); [apply rx_form; now apply (condition_readable (known d vs))| |cbn; auto]. apply rx_nl.
  apply (rx_two _ _ [_]); [rx_lit|].
  apply (rx_app _ _ [_] []); [apply rx_form; now apply (effect_readable (known d vs) _ true)| |cbn; auto]. apply (rx_nl ""), rx_nil.
Qed.

Definition domain_sections (o1 o2 o3 o4 o5 : option (list sexp)) (defs : list sexp) : list sexp :=
  opt_section ":requirements" o1 ++ opt_section ":types" o2 ++ opt_section ":constants" o3
  ++ opt_section ":predicates" o4 ++ opt_section ":functions" o5 ++ defs.
Lemma constants_ok d : expressible_domain d -> Forall const_ok (d_constants d).
Proof.
  intros E. apply Forall_forall. intros [n g] Hi. destruct (ed_constants _ E n g Hi) as [A B].
  split; auto. destruct g; cbn; auto.
Qed.
(** the types section *)
Definition types_text (d : domain) (s : string) (o : option (list sexp)) : Prop :=
  piece s (opt_section ":types" o)
  /\ match o with
     | None => d_types d = []
     | Some body => d_types d <> [] /\ exists r, typed_list_name body = Ok r /\ Permutation (map norm_item r) (d_types d)
     end.
Lemma types_shown d : domain_built d -> types_expressible d ->
  exists s o, print_types_with_parents (d_types d) = Ok s /\ types_text d s o.
Proof.
  intros B (C & O & T). destruct (built_types d B) as [N A]. destruct (domain_built_types d B) as (_ & L & _).
  destruct (d_types d) as [|kv l] eqn:E.
  - exists "", None. split; [reflexivity|]. split; [apply piece_nil|auto].
  - rewrite <- E in *. destruct (types_read (d_types d)) as (s & body & r & P & Q & R & S'); auto; [congruence|].
    exists s, (Some body). split; auto. split; auto. split; [congruence|eauto].
Qed.
Lemma domain_shown d : domain_built d -> expressible_domain d ->
  exists s o st, show_domain d = Ok s /\ types_text d st o
    /\ domain_text s (d_name d)
         (domain_sections (req_section (d_reqs d)) o (const_section (d_constants d)) (pred_section (d_predicates d))
            (fun_section (d_functions d))
            (map derived_sx (sorted_by show_derived (d_derived d))
             ++ map action_sx (sorted_by (fun a => show_action a +++ nl) (d_actions d)))).
Proof.
  intros DB E. destruct (types_shown d DB (ed_types _ E)) as (ts & o & PT & TT).
  assert (SH : exists s, show_domain d = Ok s).
  { unfold show_domain, domain_body. rewrite PT. cbn [bind]. eauto. }
  destruct SH as (s & SH). exists s, o, ts. split; auto. split; auto.
  destruct (words_domain d s SH) as (body & BD & W).
  unfold domain_body in BD. rewrite PT in BD. cbn [bind] in BD.
  assert (OI : forall x y : string, Ok x = Ok y -> x = y) by (intros; congruence). apply OI in BD.
  assert (B : piece body (domain_sections (req_section (d_reqs d)) o (const_section (d_constants d)) (pred_section (d_predicates d))
            (fun_section (d_functions d))
            (map derived_sx (sorted_by show_derived (d_derived d))
             ++ map action_sx (sorted_by (fun a => show_action a +++ nl) (d_actions d))))).
  { rewrite <- BD. unfold domain_sections.
    apply piece_app; [apply piece_reqs, (ed_reqs _ E)|]. apply piece_app; [apply TT|]. apply piece_app.
    { apply (piece_constants ":constants"); [split; [vm_compute; intuition|reflexivity]|]. now apply constants_ok. }
    apply piece_app.
    { pose proof (piece_predicates (d_predicates d) (ed_predicates _ E)) as PP. destruct (d_predicates d); exact PP. } apply piece_app; [apply piece_functions, (ed_functions _ E)|].
    apply piece_app; apply piece_collection.
    - eapply Forall_impl; [|apply (ed_derived _ E)]. intros x. apply piece_derived.
    - eapply Forall_impl; [|apply (ed_actions _ E)]. intros x. apply piece_action. }
  unfold domain_text. apply rx_read. eapply rx_split; [exact W|].
  eapply (rx_group _ ("define" +++ " " +++ ("(" +++ "domain" +++ " " +++ d_name d +++ ")") +++ nl
                      +++ body +++ nl)); [|str].
  apply (rx_two _ _ [_]); [rx_lit|]. apply (rx_app _ _ [_]).
  - apply rx_node; [rx_lit|]. apply rx_name. now apply domain_built_name.
  - apply rx_nl. rewrite <- (app_nil_r (domain_sections _ _ _ _ _ _)). apply piece_rx; [exact B|].
    apply (rx_nl ""), rx_nil.
  - cbn; auto.
Qed.

(** ** what the parser knows after the declarations *)
Record knows (d : domain) (st : dstate) : Prop := mkKnows {
  k_ext : incl (extend_reqs (d_reqs d)) (s_ext st);
  k_const : forall n k, find (fun c => String.eqb (fst c) n) (d_constants d) = Some k ->
    dict_get String.eqb n (s_constants st) = Some k;
  k_types : match s_types st with Some t => Permutation t (d_types d) | None => d_types d = [] end;
  k_preds : forall n p, dict_get String.eqb n (s_predicates st) = Some p ->
    exists q, In q (d_predicates d) /\ same_atom p q /\ fst q = n;
  k_known : forall q, In q (d_predicates d) -> dict_get String.eqb (fst q) (s_predicates st) <> None
}.
Lemma knows_params d st ps : knows d st -> knows d (set_params ps st).
Proof. intros [A B C D E]. destruct st. constructor; auto. Qed.
Lemma knows_sub d st vs : knows d st ->
  (forall n, match dict_get String.eqb n (map (fun v => (v_name v, v)) vs), dict_get String.eqb n (s_params st) with
             | Some w, Some w' => same_var w' w | None, None => True | _, _ => False end) ->
  ctx_sub (known d vs) (domain_ctx st).
Proof.
  intros K P. constructor; auto.
  - apply K.
  - intros n t. cbn [known domain_ctx g_const].
    destruct (find (fun c => String.eqb (fst c) n) (d_constants d)) as [k|] eqn:F; [|discriminate].
    rewrite (k_const _ _ K n k F). auto.
Qed.

(** ** the head of a derived predicate *)
Definition typed_var (v : var) : bool := match v_tags v with [] => false | _ => true end.
Lemma subtypes_ok d o gs gs' ts ts' : NoDup (map fst d) ->
  match o with Some t => Permutation t d | None => d = [] end ->
  same_set gs' gs -> same_set ts' ts ->
  ts = [] \/ (forall g, In g gs -> In g ts \/ exists p, In (g, Some p) d /\ In p ts) ->
  check_subtypes o gs' ts' = Ok tt.
Proof.
  intros N O G T H. destruct o as [t|].
  - apply Derived_facts2.check_subtypes_Ok.
    + eapply Permutation_NoDup; [|exact N]. symmetry. now apply Permutation_map.
    + destruct H as [->|H]; [left; now apply same_set_nil|]. right. intros g Hg. apply G in Hg.
      destruct (H g Hg) as [X|(p & X & Y)]; [left; now apply T|]. right. exists p. split; [|now apply T].
      eapply Permutation_in; [symmetry; exact O|exact X].
  - subst d. unfold check_subtypes. destruct ts' as [|t0 ts']; auto. apply iterR_Ok, Forall_forall. intros g Hg.
    destruct H as [->|H]; [exfalso; now apply (T t0); left|]. rewrite Derived_facts2.check_subtype_eq.
    destruct (H g) as [X|(p & [] & _)]; [now apply G|]. apply T in X.
    now rewrite (proj2 (memb_string_In g (t0 :: ts')) X).
Qed.
Lemma head_types_read d o : NoDup (map fst d) ->
  match o with Some t => Permutation t d | None => d = [] end ->
  forall vs ts ws us m, Forall2 same_var ws vs -> Forall2 (head_arg d) vs ts ->
    Forall2 (fun u t => same_set (t_tags u) (t_tags t)) us ts ->
    head_types o m (map TVar ws) us = Ok (bind_vars m (filter typed_var ws)).
Proof.
  intros N O vs ts ws us m S'. revert ts us m. induction S' as [|w v ws vs [S1 S2] S' IH]; intros ts us m H U.
  - inversion H; subst. inversion U; subst. reflexivity.
  - inversion H as [|? t ? ts0 A H']; subst. inversion U as [|u ? us0 ? UT U']; subst.
    cbn [map head_types filter]. unfold head_arg in A. unfold typed_var at 1.
    destruct (v_tags w) as [|g gs] eqn:W.
    + assert (V : v_tags v = []) by (apply same_set_nil, same_set_sym; exact S2).
      rewrite V in A. rewrite A in UT. apply same_set_nil in UT. rewrite UT. eapply IH; eauto.
    + rewrite (subtypes_ok d o (v_tags v) (g :: gs) (t_tags t) (t_tags u)); auto.
      * cbn [bind]. unfold bind_vars. cbn [fold_left]. rewrite W. eapply IH; eauto.
      * destruct (v_tags v); [|exact A]. left. exact A.
Qed.
Lemma head_scope vs ws : Forall legal_var vs -> repeats_same vs -> Forall2 same_var ws vs ->
  scope_map (enter vs (fun _ => [])) (bind_vars [] (filter typed_var ws)).
Proof.
  intros L R S' n. rewrite bind_vars_get. cbn [dict_get].
  destruct (enter_spec vs (fun _ => []) n R) as [A1 A2].
  destruct (find (fun v => String.eqb (v_name v) n) (rev (filter typed_var ws))) as [w|] eqn:F.
  - apply find_some in F as [Hw E]. apply in_rev in Hw. apply filter_In in Hw as [Hw _]. apply String.eqb_eq in E.
    destruct (Forall2_In_l _ _ _ _ S' Hw) as (v & Hv & V1 & V2). split.
    + apply (same_set_trans _ _ _ V2). apply same_set_sym, A1; auto. congruence.
    + rewrite Forall_forall in L. destruct (L v Hv) as (_ & T & _). rewrite Forall_forall in *. intros g Hg. apply T, V2, Hg.
  - assert (D : (forall v, In v vs -> v_name v <> n) \/ exists v, In v vs /\ v_name v = n).
    { clear. induction vs as [|v vs [IH|(x & Hx & E)]]; [left; intros ? []| |right; exists x; split; auto; now right].
      destruct (string_dec (v_name v) n) as [E|E]; [right; exists v; split; auto; now left|].
      left. intros x [<-|Hx]; auto. }
    destruct D as [D|(v & Hv & E)]; [now apply A2|].
    assert (X : exists w, In w ws /\ same_var w v).
    { clear - S' Hv. induction S' as [|a b l m Q S' IH]; [contradiction|]. destruct Hv as [<-|Hv].
      - exists a. split; auto. now left.
      - destruct (IH Hv) as (x & ? & ?). exists x. split; auto. now right. }
    destruct X as (w & Hw & V1 & V2). specialize (A1 v Hv E).
    destruct (v_tags w) as [|g gs] eqn:W.
    + apply same_set_sym, same_set_nil in V2. rewrite V2 in A1. now apply same_set_nil in A1.
    + exfalso. enough (K : String.eqb (v_name w) n = false) by (apply String.eqb_neq in K; congruence).
      apply (find_none _ _ F w).
      apply in_rev. rewrite rev_involutive. apply filter_In. split; auto. unfold typed_var. now rewrite W.
Qed.
Lemma head_update vs ws m : Forall legal_var vs -> repeats_same vs -> Forall2 same_var ws vs ->
  scope_map (enter vs (fun _ => [])) m ->
  exists us, mapR (replace_term m) (map TVar ws) = Ok us /\ Forall2 same_term us (map TVar vs).
Proof.
  intros L R S' M.
  assert (X : forall l k, incl l vs -> Forall2 same_var k l ->
    exists us, mapR (replace_term m) (map TVar k) = Ok us /\ Forall2 same_term us (map TVar l)).
  { induction l as [|v l IH]; intros k I F; inversion F as [|w ? k' ? V F']; subst; [exists []; split; auto; constructor|].
    destruct (IH k') as (us & U1 & U2); auto; [intros x Hx; apply I; now right|].
    assert (Hv : In v vs) by (apply I; now left).
    assert (RT : exists u', replace_term m (TVar w) = Ok u' /\ same_term u' (TVar v)).
    { destruct (enter_spec vs (fun _ => []) (v_name v) R) as [A1 _]. specialize (A1 v Hv eq_refl).
      rewrite Forall_forall in L. destruct (L v Hv) as (LN & _). destruct V as [V1 V2].
      pose proof (M (v_name v)) as Mv.
      destruct (replace_scoped _ m (TVar v) (TVar (mkVar (v_name w) [])) M) as (u' & R1 & R2).
      - cbn. now apply same_set_sym.
      - exact LN.
      - cbn. split; [|split; [auto|apply same_set_refl]].
        cbn. apply same_var_eqb. split; auto. apply same_set_refl.
      - cbn [replace_term v_name] in *. rewrite V1 in *.
        destruct (dict_get String.eqb (v_name v) m) as [gs|] eqn:G.
        + exists u'. split; auto. unfold with_type_tags in *. cbn [v_name] in *. rewrite V1. exact R1.
        + exists (TVar w). split; auto. split; [apply same_var_eqb; split; auto|]. split; auto. }
    destruct RT as (u' & R1 & R2). exists (u' :: us). cbn [map mapR]. rewrite R1. cbn [bind]. rewrite U1. cbn [bind].
    split; auto. }
  apply X; auto. apply incl_refl.
Qed.

Definition same_derived (x y : derived) : Prop :=
  dp_name x = dp_name y /\ Forall2 same_term (dp_terms x) (dp_terms y) /\ sim (dp_cond x) (dp_cond y).
Lemma derived_read d st x : knows d st -> s_params st = [] -> NoDup (map fst (d_types d)) -> derived_expressible d x ->
  exists x', structure_def (derived_sx x) st = (st, Ok (inr x')) /\ same_derived x' x.
Proof.
  intros K P N (vs & ts & E & LN & L & R & U & Hp & UN & HA & B & C & SC).
  destruct (pred_read (dp_name x, dp_terms x)) as ((hn & hts) & H1 & H2 & ws & vs' & H3 & H4 & H5).
  { exists vs. auto. }
  cbn [fst snd] in *. subst hn hts. rewrite E in H4. apply map_TVar_inj in H4. subst vs'.
  pose proof (condition_binders _ _ C) as BO. pose proof (built_nff _ B) as NF.
  assert (C' : condition (domain_ctx st) (bare (dp_cond x))).
  { apply (sub_condition (known d [])); auto. apply knows_sub; auto. intros n. rewrite P. cbn. auto. }
  destruct (gd_sim (domain_ctx st) (or_introl eq_refl) (bare (dp_cond x)) C') as (g & G & GS); [now apply (bare_nff _ _ SC)|].
  destruct (dict_get String.eqb (dp_name x) (s_predicates st)) as [[pn pts]|] eqn:D.
  2:{ exfalso. now apply (k_known _ _ K _ Hp). }
  destruct (k_preds _ _ K _ _ D) as ((qn & qts) & Hq & (E1 & us & ts' & E2 & E3 & F) & E4). cbn [fst snd] in *. subst qn pn pts qts.
  apply UN in Hq.
  assert (FT : Forall2 (fun u t => same_set (t_tags u) (t_tags t)) (map TVar us) ts).
  { rewrite <- Hq. clear - F. induction F as [|? ? ? ? [_ H]]; constructor; auto. }
  pose proof (head_types_read (d_types d) (s_types st) N (k_types _ _ K) vs ts ws (map TVar us) [] H5 HA FT) as HT.
  pose proof (head_scope vs ws L R H5) as M. set (m := bind_vars [] (filter typed_var ws)) in *.
  destruct (head_update vs ws m L R H5 M) as (nts & U1 & U2).
  destruct (update_sim (dp_cond x) g _ m GS SC M BO (built_atoms _ B) NF) as (g' & G1 & G2).
  assert (NC : name_consistent nts).
  { apply (same_terms_consistent _ (map TVar vs)); auto. apply (same_var_consistent vs vs); auto.
    clear. induction vs; constructor; auto. split; auto. apply same_set_refl. }
  exists (mkDerived (dp_name x) nts g'). split; [|split; [auto|split; [now rewrite E|auto]]].
  unfold derived_sx, structure_def. cbn [is_kw String.eqb Ascii.eqb Bool.eqb]. unfold derived_def, bindM, ret, reads.
  rewrite H1, G. unfold derived_callback. cbn [fst snd]. rewrite D. cbn [fst snd].
  assert (LEN : length (map TVar us) = length (map TVar ws)).
  { rewrite (Forall2_length _ _ _ FT), <- (Forall2_length _ _ _ HA), map_length. symmetry. apply (Forall2_length _ _ _ H5). }
  rewrite LEN, Nat.eqb_refl. cbn [check bind]. rewrite HT. cbn [bind update_type_tags]. rewrite U1. cbn [bind].
  rewrite (proj2 (mk_pred_iff (dp_name x) nts (FPred (dp_name x) nts))) by auto. cbn [bind].
  rewrite G1. reflexivity.
Qed.

Definition same_action (a b : action) : Prop :=
  a_name a = a_name b /\ Forall2 same_term (a_params a) (a_params b)
  /\ (exists p e p' e', a_pre a = Some p /\ a_eff a = Some e /\ a_pre b = Some p' /\ a_eff b = Some e'
        /\ sim p p' /\ sim e e').
Lemma same_vars_terms ws vs : Forall2 same_var ws vs -> Forall2 same_term (map TVar ws) (map TVar vs).
Proof.
  induction 1 as [|w v ws vs H F IH]; cbn [map]; constructor; auto.
  split; [now apply same_var_eqb|]. split; apply H.
Qed.
Lemma params_get ws vs : Forall2 same_var ws vs -> forall n,
  match dict_get String.eqb n (map (fun v => (v_name v, v)) vs), dict_get String.eqb n (map (fun v => (v_name v, v)) ws) with
  | Some w, Some w' => same_var w' w | None, None => True | _, _ => False end.
Proof.
  induction 1 as [|w v ws vs [H1 H2] F IH]; intros n; cbn [map dict_get]; auto. rewrite H1.
  destruct (String.eqb n (v_name v)); [split; auto|apply IH].
Qed.
Lemma mk_vars_names tl vars : mk_vars tl = Ok vars -> map fst tl = map v_name vars.
Proof.
  unfold mk_vars. intros H. apply mapR_Ok in H. induction H as [|[n gs] v l vs H F IH]; auto. cbn [map fst].
  rewrite IH. f_equal. cbn [fst snd] in H. now apply mk_var_Ok in H as (-> & _).
Qed.
Lemma combine_names ws : combine (map v_name ws) ws = map (fun v => (v_name v, v)) ws.
Proof. induction ws; cbn; congruence. Qed.
Lemma action_read d st a : knows d st -> action_expressible d a ->
  exists ps a', structure_def (action_sx a) st = (set_params ps st, Ok (inl a')) /\ same_action a' a.
Proof.
  intros K (vs & pre & eff & E & N & BL & ND & B1 & C & B2 & F). destruct a as [n ps p e]. cbn [a_name] in *.
  injection E as -> -> ->.
  assert (X : exists ws, back (flat_map plain_sx vs) = Ok ws /\ Forall2 same_var ws vs).
  { apply back_plain; apply BL || (destruct BL as (? & ? & ? & ?); auto). }
  destruct X as (ws & X & S'). unfold back in X. apply bind_Ok in X as (tl & T & V).
  set (ps := map (fun v => (v_name v, v)) ws).
  assert (NW : map v_name ws = map v_name vs) by (clear - S'; induction S' as [|? ? ? ? [H _]]; cbn; congruence).
  assert (DL : dict_of_list String.eqb (combine (map fst tl) ws) = ps).
  { rewrite (mk_vars_names _ _ V), combine_names. apply dict_of_list_id; [apply string_eqb_equiv|].
    fold ps. unfold ps. rewrite map_map. cbn [fst]. change (map (fun x => v_name x) ws) with (map v_name ws). rewrite NW. now apply NoDupE_string. }
  assert (SUB : ctx_sub (known d vs) (domain_ctx (set_params ps st))).
  { apply knows_sub; [now apply knows_params|]. destruct st. apply (params_get ws vs S'). }
  destruct (emptyor_pregd_sim (domain_ctx (set_params ps st)) (or_introl eq_refl) pre) as (p' & P1 & P2).
  { apply (sub_condition _ _ SUB). exact C. }
  { now apply built_nff. }
  destruct (emptyor_effect_sim (domain_ctx (set_params ps st)) (or_introl eq_refl) eff) as (e' & E1 & E2); [reflexivity| |now apply built_nff|].
  { apply (sub_effect _ _ SUB). exact F. }
  exists ps, (mkAction n (map TVar ws) (Some p') (Some e')). split.
  - unfold action_sx, structure_def. cbn [a_name a_params a_pre a_eff is_kw String.eqb Ascii.eqb Bool.eqb]. rewrite vars_of_map.
    unfold bindM. unfold name_sx, action_def. cbn [is_kw String.eqb Ascii.eqb Bool.eqb].
    unfold action_parameters, bindM, ret, modify, reads. rewrite T, V. rewrite DL.
    unfold action_body. cbn [is_kw String.eqb Ascii.eqb Bool.eqb andb]. rewrite P1. cbn [bind]. rewrite E1. cbn [bind fst snd].
    unfold mk_action. rewrite (proj2 (parse_name_Ok n) N). cbn [bind]. unfold ps. rewrite map_map. reflexivity.
  - split; auto. split; [now apply same_vars_terms|]. exists p', e', pre, eff. auto 10.
Qed.

(** all the definitions *)
Lemma derived_all d st l : knows d st -> s_params st = [] -> NoDup (map fst (d_types d)) -> Forall (derived_expressible d) l ->
  exists l', runs structure_def st (map derived_sx l) (map inr l') st /\ Forall2 same_derived l' l.
Proof.
  intros K P N. induction 1 as [|x l H F IH]; [exists []; split; constructor|].
  destruct IH as (l' & R & S'). destruct (derived_read d st x K P N H) as (x' & X & SX).
  exists (x' :: l'). split; [|now constructor]. cbn [map]. econstructor; eauto.
Qed.
Lemma actions_all d l : Forall (action_expressible d) l -> forall st, knows d st ->
  exists l' st', runs structure_def st (map action_sx l) (map inl l') st' /\ Forall2 same_action l' l.
Proof.
  induction 1 as [|x l H F IH]; intros st K; [exists [], st; split; constructor|].
  destruct (action_read d st x K H) as (ps & x' & X & SX). destruct (IH (set_params ps st)) as (l' & st' & R & S').
  { now apply knows_params. }
  exists (x' :: l'), st'. split; [|now constructor]. cbn [map]. econstructor; eauto.
Qed.
Lemma runs_app {A B} (f : A -> M B) l m : forall st st1 st2 ys zs,
  runs f st l ys st1 -> runs f st1 m zs st2 -> runs f st (l ++ m) (ys ++ zs) st2.
Proof.
  intros st st1 st2 ys zs R. induction R; intros R2; cbn [app]; auto. econstructor; eauto.
Qed.

(** ** the declarations *)
Definition heads (ks : list string) (l : list sexp) : Prop :=
  match l with [] => True | x :: _ => exists k b, In k ks /\ x = section_sx k b end.
Lemma heads_weaken ks ks' l : incl ks ks' -> heads ks l -> heads ks' l.
Proof. intros I. destruct l; auto. intros (k & b & H & E). exists k, b. auto. Qed.
Lemma heads_opt k o ks l : heads ks l -> heads (k :: ks) (opt_section k o ++ l).
Proof.
  intros H. destruct o as [b|]; cbn [opt_section app].
  - exists k, b. split; auto. now left.
  - eapply heads_weaken; [|exact H]. intros x Hx. now right.
Qed.
Lemma section_opt k o ks l : heads ks l -> ~ In k ks -> section k (opt_section k o ++ l) = (o, l).
Proof.
  intros H N. destruct o as [b|]; cbn [opt_section app section section_sx is_kw].
  - now rewrite String.eqb_refl.
  - destruct l as [|x l]; auto. destruct H as (k' & b & H & ->). cbn [section_sx is_kw section].
    destruct (String.eqb_spec k k'); auto. subst. contradiction.
Qed.
Lemma heads_defs d a : heads [":derived"; ":action"] (map derived_sx d ++ map action_sx a).
Proof.
  destruct d as [|x d]; [destruct a as [|y a]; cbn; auto|].
  - exists ":action". eexists. split; [right; now left|reflexivity].
  - exists ":derived". eexists. split; [now left|reflexivity].
Qed.

Lemma types_section_read d s o st : types_text d s o -> (d_types d <> [] -> has TYPING (s_ext st) = true) ->
  s_types st = None ->
  exists ty, optM types_section o st = (set_types ty st, Ok ty)
    /\ match ty with Some t => Permutation t (d_types d) | None => d_types d = [] end.
Proof.
  intros [_ T] HT S0. destruct o as [body|].
  - destruct T as (NE & r & R & P). exists (Some (map norm_item r)). split; auto.
    unfold optM, types_section, bindM, ret, reads, modify. rewrite R. rewrite (HT NE), orb_true_r. cbn [check].
    rewrite S0. reflexivity.
  - exists None. split; auto. destruct st. cbn in *. now subst.
Qed.
Lemma constants_section_read d st : NoDup (map fst (d_constants d)) -> Forall const_ok (d_constants d) ->
  s_constants st = [] ->
  exists cs, optM constants_section (const_section (d_constants d)) st
     = (set_constants (map (fun c => (fst c, c)) (opt_list cs)) st, Ok cs)
    /\ Permutation (opt_list cs) (d_constants d).
Proof.
  intros N F S0. destruct (d_constants d) as [|c cs]; [exists None; split; [destruct st; cbn in *; now subst|constructor]|].
  destruct (parse_constants (c :: cs) N F) as (l & D & P).
  assert (C : constants_by_name l = Ok (map (fun c => (fst c, c)) l)).
  { apply constants_by_name_id.
    - eapply Permutation_NoDup; [|exact N]. symmetry. now apply Permutation_map.
    - eapply Permutation_Forall; [symmetry; exact P|auto]. }
  exists (Some l). split; auto.
  unfold const_section, optM, constants_section, bindM, ret, modify. rewrite D, C. rewrite map_map. cbn [snd]. now rewrite map_id.
Qed.
Lemma mapR_exists {A B} (f : A -> res B) (Q : B -> A -> Prop) l :
  Forall (fun x => exists y, f x = Ok y /\ Q y x) l -> exists ys, mapR f l = Ok ys /\ Forall2 Q ys l.
Proof.
  induction 1 as [|x l (y & Y & H) F (ys & YS & G)]; [exists []; split; auto|].
  exists (y :: ys). cbn. rewrite Y. cbn. rewrite YS. auto.
Qed.
Lemma predicates_section_read ps st : Forall predicate_expressible ps -> s_predicates st = [] ->
  exists qs ps0, optM predicates_section (pred_section ps) st
     = (set_predicates (dict_of_list String.eqb (map (fun p => (fst p, p)) (opt_list qs))) st, Ok qs)
    /\ Permutation ps0 ps /\ Forall2 same_atom (opt_list qs) ps0.
Proof.
  intros F S0. destruct ps as [|p ps]; [exists None, []; split; [destruct st; cbn in *; now subst|split; constructor]|].
  set (l := p :: ps) in *. pose proof (sort_perm atom_ltb l) as P.
  assert (F' : Forall predicate_expressible (sort_by atom_ltb l)) by (eapply Permutation_Forall; [symmetry; exact P|exact F]).
  destruct (mapR_exists (fun p => atomic_formula_skeleton (pred_sx p)) same_atom (sort_by atom_ltb l)) as (qs & Q & S').
  { eapply Forall_impl; [|exact F']. intros a. apply pred_read. }
  exists (Some qs), (sort_by atom_ltb l). split; [|split; auto].
  unfold pred_section, optM, predicates_section, bindM, ret, modify.
  assert (Q' : mapR atomic_formula_skeleton (map pred_sx (sort_by atom_ltb l)) = Ok qs).
  { clear - Q. revert qs Q. induction (sort_by atom_ltb l) as [|x m IH]; cbn [map mapR]; intros qs Q; auto.
    destruct (atomic_formula_skeleton (pred_sx x)); cbn [bind] in *; [|discriminate].
    destruct (mapR (fun p => atomic_formula_skeleton (pred_sx p)) m) as [ys|]; [|discriminate].
    now rewrite (IH ys eq_refl). }
  cbn [l]. fold l. destruct (map pred_sx (sort_by atom_ltb l)) as [|s r] eqn:M.
  { exfalso. destruct (sort_by atom_ltb l) eqn:E; [|discriminate]. apply Permutation_nil in P. discriminate. }
  rewrite Q'. reflexivity.
Qed.
Lemma functions_section_read fs st : Forall function_expressible fs -> NoDupE atom_eqb (map fst fs) ->
  exists qs fs0, optM (fun l => ret (functions_section l)) (fun_section fs) st = (st, Ok qs)
    /\ Permutation fs0 fs /\ Forall2 same_fun (opt_list qs) fs0.
Proof.
  intros F N. destruct fs as [|f fs]; [exists None, []; split; [reflexivity|split; constructor]|].
  destruct (functions_read (f :: fs) F ltac:(discriminate) N) as (qs & fs0 & H & P & S').
  exists (Some qs), fs0. split; auto. unfold fun_section, optM, bindM, ret. rewrite H. reflexivity.
Qed.

(** ** rebuilding the domain *)
Lemma supertype_perm t t' a b : Permutation t t' -> supertype t a b -> supertype t' a b.
Proof. intros P [H N]. split; auto. eapply Permutation_in; eauto. Qed.
Lemma declared_perm t t' g : Permutation t t' -> declared t g -> declared t' g.
Proof.
  intros P [(v & H)|(c & H)]; [left; exists v; eapply Permutation_in; eauto|right; exists c; eapply supertype_perm; eauto].
Qed.
Lemma term_typed_perm t t' rs rs' x : Permutation t t' -> (forall r, In r rs -> In r rs') ->
  term_typed t rs x -> term_typed t' rs' x.
Proof.
  intros P R [A B]. split.
  - intros N. destruct (A N); [left|right]; auto.
  - intros g Hg. eapply declared_perm; eauto.
Qed.
Lemma form_typed_perm t t' rs rs' f : Permutation t t' -> (forall r, In r rs -> In r rs') ->
  form_typed t rs f -> form_typed t' rs' f.
Proof. intros P R H x O. eapply term_typed_perm; eauto. Qed.
Lemma built_conditions d : domain_built d ->
  ((exists k p, supertype (d_types d) k p) -> In TYPING (d_reqs d)) /\ hierarchy_ok (d_types d)
  /\ ((exists n ts v, In ((n, ts), v) (d_functions d) /\ n = "total-cost") -> In ACTION_COSTS (d_reqs d))
  /\ ((exists n ts v, In ((n, ts), v) (d_functions d) /\ n <> "total-cost") ->
      In NUMERIC_FLUENTS (d_reqs d) \/ In FLUENTS (d_reqs d))
  /\ domain_consistent d.
Proof.
  intros B. destruct (domain_built_types d B) as (N & L & NT).
  destruct B as (n & rs & ty & cs & ps & dps & fs & acts & H).
  apply mk_domain_inv in H as (_ & _ & R & T & C & _ & _ & _ & F & _ & DC).
  assert (M : mk_types (Some (d_types d)) (d_reqs d) false = Ok (d_types d)).
  { unfold mk_types in *. rewrite R. apply bind_Ok in T as (t & T1 & T). apply bind_Ok in T as ([] & T2 & T).
    inversion T; subst t. rewrite (proj2 (to_types_Ok (d_types d) (d_types d) N)) by auto. cbn [bind]. now rewrite T2. }
  apply mk_types_Ok in M as (_ & _ & M1 & M2); auto. split; auto. split; auto.
  rewrite R, F. apply check_total_cost_Ok in C as [C1 C2]. split; auto. split; auto.
  now apply domain_check_Ok.
Qed.
Lemma norm_types_fixed t : norm_types t = t <-> Forall (fun kv => norm_parent (snd kv) = snd kv) t.
Proof.
  unfold norm_types. induction t as [|[k v] t IH]; cbn [map fst snd]; [split; auto|]. split.
  - intros H. injection H as H1 H2. constructor; auto. now apply IH.
  - intros H. inversion H; subst. cbn [snd] in *. f_equal; [congruence|now apply IH].
Qed.
Lemma same_derived_eqb x y : same_derived x y -> derived_eqb x y = true.
Proof.
  intros (N & T & C). unfold derived_eqb, dp_pred. apply andb_true_iff. split; [|now apply sim_eqf].
  cbn [form_eqb]. rewrite N, String.eqb_refl. cbn [andb]. now apply same_terms_eqb.
Qed.
Lemma same_action_eqb x y : same_action x y -> action_eqb x y = true.
Proof.
  intros (N & T & p & e & p' & e' & E1 & E2 & E3 & E4 & S1 & S2). unfold action_eqb.
  rewrite N, String.eqb_refl, E1, E2, E3, E4. rewrite (same_terms_eqb _ _ T). cbn [andb option_eqb].
  apply andb_true_iff. split; now apply sim_eqf.
Qed.
Lemma set_eqb_dedup {A} (eqb : A -> A -> bool) (Q : A -> A -> Prop) qs ps0 ps : is_equiv eqb ->
  (forall x y, Q x y -> eqb x y = true) -> Forall2 Q qs ps0 -> Permutation ps0 ps ->
  set_eqb eqb (dedup eqb qs) ps = true.
Proof.
  intros E I F P. pose proof (set_eqb_equiv _ E) as SE.
  apply (eqv_trans _ SE _ qs); [apply dedup_set_eqb; exact E|].
  apply (eqv_trans _ SE _ ps0); [|now apply set_eqb_perm].
  apply set_eqb_Forall2; auto. clear - F I. induction F; constructor; auto.
Qed.
Lemma dict_eqb_perm {K V} (eqb : K -> K -> bool) (veqb : V -> V -> bool) (d1 d0 d2 : list (K * V)) : is_equiv eqb -> is_equiv veqb ->
  Forall2 (fun a b => eqb (fst a) (fst b) = true /\ veqb (snd a) (snd b) = true) d1 d0 -> Permutation d0 d2 ->
  NoDupE eqb (map fst d2) -> dict_eqb eqb veqb d1 d2 = true.
Proof.
  intros E EV F P N. unfold dict_eqb. apply andb_true_iff. split.
  - apply Nat.eqb_eq. rewrite (Forall2_length _ _ _ F). now apply Permutation_length.
  - apply forallb_forall. intros [k v] Hi. cbn [fst snd].
    destruct (Forall2_In_l _ _ _ _ F Hi) as ((k0 & v0) & H0 & Q1 & Q2). cbn [fst snd] in *.
    rewrite (dict_get_cong _ E _ _ d2 Q1). apply (Permutation_in _ P) in H0.
    now rewrite (dict_get_In_iff _ E _ _ _ N H0).
Qed.

Lemma rebuilt d qrs tyl qcs qps ps0 qfs fs0 qds ds0 qas as0 : domain_built d -> NoDupE atom_eqb (map fst (d_functions d)) ->
  (forall r, In r qrs <-> In r (d_reqs d)) -> Permutation tyl (d_types d) -> Permutation qcs (d_constants d) ->
  Forall2 same_atom qps ps0 -> Permutation ps0 (d_predicates d) ->
  Forall2 same_fun qfs fs0 -> Permutation fs0 (d_functions d) ->
  Forall2 same_derived qds ds0 -> Permutation ds0 (d_derived d) ->
  Forall2 same_action qas as0 -> Permutation as0 (d_actions d) ->
  exists q, mk_domain (d_name d) qrs (Some tyl) qcs qps qds qfs qas = Ok q /\ domain_eqb q d = true
    /\ d_constants q = dedup const_eqb qcs
    /\ d_derived q = dedup derived_eqb qds /\ d_actions q = dedup action_eqb qas.
Proof.
  intros B NF R T C P1 P2 F1 F2 D1 D2 A1 A2.
  destruct (domain_built_types d B) as (N & [L1 L2] & NT). destruct (built_conditions d B) as (K1 & (K2 & K3) & K4 & K5 & K6).
  assert (NTy : NoDup (map fst tyl)) by (eapply Permutation_NoDup; [|exact N]; symmetry; now apply Permutation_map).
  assert (NN : norm_types tyl = tyl).
  { apply norm_types_fixed. eapply Permutation_Forall; [symmetry; exact T|]. now apply norm_types_fixed. }
  assert (RD : forall r, In r (dedup req_eqb qrs) <-> In r (d_reqs d)).
  { intros r. rewrite <- R. rewrite <- !memb_req_In. now rewrite (memb_dedup _ req_eqb_equiv). }
  set (q := mkDomain (d_name d) (dedup req_eqb qrs) tyl (dedup const_eqb qcs) (dedup atom_eqb qps)
               (dedup derived_eqb qds) qfs (dedup action_eqb qas)).
  exists q. split.
  - apply mk_domain_Ok; auto. rewrite NN. split; [reflexivity|]. split; [now apply domain_built_name|].
    split; [|split; [|split]].
    + split; [split|].
      * intros k v Hk. eapply L1. eapply Permutation_in; [exact T|exact Hk].
      * intros k p Hp. eapply L2. eapply supertype_perm; [exact T|exact Hp].
      * split; [|split].
        -- intros (k & p & H). apply R, K1. exists k, p. eapply supertype_perm; [exact T|exact H].
        -- intros p H. apply (K2 p). eapply supertype_perm; [exact T|exact H].
        -- intros x H. apply (K3 x).
           assert (Y : forall a b, clos_trans _ (supertype tyl) a b -> clos_trans _ (supertype (d_types d)) a b).
           { clear - T. intros a b H. induction H; [apply t_step; eapply supertype_perm; eauto|eapply t_trans; eauto]. }
           now apply Y.
    + intros (n & ts & v & H & E). apply R, K4. destruct (Forall2_In_l _ _ _ _ F1 H) as (((n', ts'), v') & H' & (E' & _) & _).
      cbn [fst snd] in *. exists n', ts', v'. split; [eapply Permutation_in; eauto|congruence].
    + intros (n & ts & v & H & E). rewrite !R. apply K5. destruct (Forall2_In_l _ _ _ _ F1 H) as (((n', ts'), v') & H' & (E' & _) & _).
      cbn [fst snd] in *. exists n', ts', v'. split; [eapply Permutation_in; eauto|congruence].
    + destruct K6 as (C1 & C2 & C3 & C4). unfold domain_consistent, q. cbn [d_types d_reqs d_constants d_predicates d_actions d_derived].
      assert (TP : Permutation (d_types d) tyl) by now symmetry.
      assert (RI : forall r, In r (d_reqs d) -> In r (dedup req_eqb qrs)) by (intros r; apply RD).
      split; [|split; [|split]].
      * intros c Hc. apply dedup_In in Hc. eapply term_typed_perm; [exact TP|exact RI|]. apply C1. eapply Permutation_in; eauto.
      * intros p t Hp Ht. apply dedup_In in Hp. eapply term_typed_perm; [exact TP|exact RI|].
        destruct (Forall2_In_l _ _ _ _ P1 Hp) as (p' & Hp' & E & ws & vs & E1 & E2 & F). rewrite E1 in Ht.
        destruct (Forall2_In_l _ _ _ _ (same_vars_terms _ _ F) Ht) as (u & Hu & U).
        apply (term_typed_same _ _ u); auto. apply (C2 p'); [eapply Permutation_in; eauto|now rewrite E2].
      * intros a Ha. apply dedup_In in Ha.
        destruct (Forall2_In_l _ _ _ _ A1 Ha) as (a' & Ha' & E & F & p & e & p' & e' & E1 & E2 & E3 & E4 & S1 & S2).
        destruct (C3 a') as (_ & _ & G1 & G2 & G3); [eapply Permutation_in; eauto|].
        rewrite E1, E2. split; [discriminate|]. split; [discriminate|]. split; [|split].
        -- intros t Ht. destruct (Forall2_In_l _ _ _ _ F Ht) as (u & Hu & U). eapply term_typed_perm; [exact TP|exact RI|].
           apply (term_typed_same _ _ u); auto.
        -- rewrite E1. rewrite E3 in G2. eapply form_typed_perm; [exact TP|exact RI|]. now apply (sim_typed _ _ _ p').
        -- rewrite E2. rewrite E4 in G3. eapply form_typed_perm; [exact TP|exact RI|]. now apply (sim_typed _ _ _ e').
      * intros x t g Hx Ht Hg. apply dedup_In in Hx.
        destruct (Forall2_In_l _ _ _ _ D1 Hx) as (x' & Hx' & E & F & _).
        destruct (Forall2_In_l _ _ _ _ F Ht) as (u & Hu & _ & _ & U). eapply declared_perm; [exact TP|].
        apply (C4 x' u g); auto; [eapply Permutation_in; eauto|now apply U].
  - split; [|repeat split; reflexivity]. unfold domain_eqb, q. cbn [d_name d_types d_reqs d_constants d_predicates d_actions d_derived d_functions].
    rewrite String.eqb_refl. cbn [andb]. rewrite !andb_true_iff. repeat match goal with |- _ /\ _ => split end.
    + apply set_eqb_spec; [apply req_eqb_equiv|]. intros r.
      destruct (memb req_eqb r (dedup req_eqb qrs)) eqn:X, (memb req_eqb r (d_reqs d)) eqn:Y; auto.
      * apply memb_req_In, RD, memb_req_In in X. congruence.
      * apply memb_req_In, RD, memb_req_In in Y. congruence.
    + apply (dict_eqb_perm _ _ tyl tyl); auto using string_eqb_equiv.
      * apply option_eqb_equiv, string_eqb_equiv.
      * clear. induction tyl as [|[k v] l IH]; constructor; auto. cbn. split; [apply String.eqb_refl|].
        apply (eqv_refl _ (option_eqb_equiv _ string_eqb_equiv)).
      * now apply NoDupE_string.
    + apply (set_eqb_dedup _ eq qcs qcs); [apply const_eqb_equiv| | |exact C].
      * intros x y ->. apply (eqv_refl _ const_eqb_equiv).
      * clear. induction qcs; constructor; auto.
    + apply (set_eqb_dedup _ same_atom qps ps0); auto using atom_eqb_equiv, same_atom_eqb.
    + apply (dict_eqb_perm _ _ qfs fs0); auto using atom_eqb_equiv.
      * apply option_eqb_equiv, string_eqb_equiv.
      * clear - F1. induction F1 as [|a b l m [H1 H2] F IH]; constructor; auto. split; [now apply same_atom_eqb|].
        rewrite H2. apply (eqv_refl _ (option_eqb_equiv _ string_eqb_equiv)).
    + apply (set_eqb_dedup _ same_derived qds ds0); auto using derived_eqb_equiv, same_derived_eqb.
    + apply (set_eqb_dedup _ same_action qas as0); auto using action_eqb_equiv, same_action_eqb.
Qed.

Lemma flat_map_inl {A B} (l : list A) :
  flat_map (fun x : A + B => match x with inl a => [a] | inr _ => [] end) (map inl l) = l.
Proof. induction l; cbn; congruence. Qed.
Lemma flat_map_inr_l {A B} (l : list B) :
  flat_map (fun x : A + B => match x with inl a => [a] | inr _ => [] end) (map inr l) = [].
Proof. induction l; cbn; congruence. Qed.
Lemma flat_map_inr {A B} (l : list B) :
  flat_map (fun x : A + B => match x with inl _ => [] | inr d => [d] end) (map inr l) = l.
Proof. induction l; cbn; congruence. Qed.
Lemma flat_map_inl_r {A B} (l : list A) :
  flat_map (fun x : A + B => match x with inl _ => [] | inr d => [d] end) (map inl l) = [].
Proof. induction l; cbn; congruence. Qed.

(** the lists alike, up to order *)
Definition alike {A} (R : A -> A -> Prop) (l m : list A) : Prop := exists m', Forall2 R l m' /\ Permutation m' m.
Lemma alike_dedup {A} (eqb : A -> A -> bool) (R : A -> A -> Prop) qs m0 m : is_equiv eqb -> (forall x y, R x y -> eqb x y = true) ->
  NoDupE eqb m -> Forall2 R qs m0 -> Permutation m0 m -> alike R (dedup eqb qs) m.
Proof.
  intros Q I N F P. exists m0. split; auto. rewrite dedup_id; auto.
  apply (NoDupE_Forall2 eqb _ m0); auto.
  - clear - F I. induction F; constructor; auto.
  - eapply NoDupE_perm; [exact Q|symmetry; exact P|exact N].
Qed.
Theorem domain_read_alike d : domain_built d -> expressible_domain d -> NoDupE atom_eqb (map fst (d_functions d)) ->
  exists s q, show_domain d = Ok s /\ parse_domain_fresh s = Ok q /\ domain_eqb q d = true
    /\ (forall c, In c (d_constants q) <-> In c (d_constants d))
    /\ alike same_derived (d_derived q) (d_derived d) /\ alike same_action (d_actions q) (d_actions d).
Proof.
  intros B E NF. destruct (domain_shown d B E) as (s & o & ts & SH & TT & DT).
  exists s. destruct E as [ER ET EC EP EF ED EA].
  destruct (domain_built_types d B) as (NT & _).
  set (defs := map derived_sx (sorted_by show_derived (d_derived d))
             ++ map action_sx (sorted_by (fun a => show_action a +++ nl) (d_actions d))) in *.
  pose proof (sorted_by_perm req_str (d_reqs d)) as RP.
  set (rs := sorted_by req_str (d_reqs d)) in *.
  assert (RR : forall r, In r rs <-> In r (d_reqs d)).
  { intros r. split; apply Permutation_in; [exact RP|now symmetry]. }
  assert (RO : ~ In OBJECT_FLUENTS rs) by (now rewrite RR).
  (* the state after each section *)
  set (st1 := set_ext (extend_reqs rs) init_dstate).
  pose proof (declared_run rs init_dstate RO eq_refl) as X1. fold st1 in X1.
  assert (RS : req_section (d_reqs d) = match rs with [] => None | _ => Some (map req_sx rs) end).
  { unfold req_section. destruct (d_reqs d) as [|r l] eqn:Q.
    - apply Permutation_sym, Permutation_nil in RP. now rewrite RP.
    - fold rs. destruct rs eqn:Q2; [|reflexivity]. apply Permutation_nil in RP. discriminate. }
  rewrite <- RS in X1.
  set (o1 := match rs with [] => None | _ => Some (dedup req_eqb rs) end) in *.
  assert (O1 : forall r, In r (opt_list o1) <-> In r (d_reqs d)).
  { intros r. unfold o1. rewrite <- RR. destruct rs as [|r0 rs0]; [reflexivity|]. cbn [opt_list].
    rewrite <- !memb_req_In. now rewrite (memb_dedup _ req_eqb_equiv). }
  assert (TY : d_types d <> [] -> has TYPING (s_ext st1) = true).
  { intros H. destruct ET as (_ & _ & T). apply T in H. apply has_In. cbn [st1 set_ext s_ext]. apply extend_reqs_In. destruct H as [H|H].
    - left. now apply RR.
    - right. right. left. split; [now apply RR|]. vm_compute. tauto. }
  destruct (types_section_read d ts o st1 TT TY eq_refl) as (ty & X2 & T2).
  set (st2 := set_types ty st1) in *.
  assert (CN : NoDup (map fst (d_constants d))).
  { destruct B as (? & ? & ? & ? & ? & ? & ? & ? & H). apply mk_domain_inv in H as (_ & _ & _ & _ & _ & -> & _). apply objects_NoDup. }
  assert (CO : Forall const_ok (d_constants d)).
  { apply Forall_forall. intros [n g] Hi. destruct (EC n g Hi) as [H1 H2]. split; auto. destruct g; cbn; auto. }
  destruct (constants_section_read d st2 CN CO eq_refl) as (cs & X3 & C3).
  set (st3 := set_constants (map (fun c => (fst c, c)) (opt_list cs)) st2) in *.
  destruct (predicates_section_read (d_predicates d) st3 EP eq_refl) as (qps & ps0 & X4 & P4 & S4).
  set (st4 := set_predicates (dict_of_list String.eqb (map (fun p => (fst p, p)) (opt_list qps))) st3) in *.
  destruct (functions_section_read (d_functions d) st4 EF NF) as (qfs & fs0 & X5 & P5 & S5).
  assert (KN : knows d st4).
  { constructor.
    - intros r. cbn [st4 st3 st2 st1 set_predicates set_constants set_types set_ext s_ext]. rewrite !extend_reqs_In. now rewrite !RR.
    - intros n k H. cbn [st4 st3 set_predicates set_constants s_constants].
      apply find_some in H as [Hk E]. apply String.eqb_eq in E. subst n.
      apply dict_get_In_iff; [apply string_eqb_equiv| |].
      + rewrite map_map. cbn [fst]. apply NoDupE_string. eapply Permutation_NoDup; [|exact CN].
        symmetry. change (map (fun c : const => fst c) (opt_list cs)) with (map fst (opt_list cs)). now apply Permutation_map.
      + apply in_map_iff. exists k. split; auto. eapply Permutation_in; [symmetry; exact C3|exact Hk].
    - exact T2.
    - intros n p H. cbn [st4 set_predicates s_predicates] in H. rewrite dict_get_of_list in H by apply string_eqb_equiv.
      apply dict_get_In in H as (k & Hk & E). apply in_rev in Hk. apply in_map_iff in Hk as (p' & [= <- <-] & Hp).
      apply String.eqb_eq in E. destruct (Forall2_In_l _ _ _ _ S4 Hp) as (q & Hq & SA). exists q.
      split; [eapply Permutation_in; eauto|]. split; auto. destruct SA as [SA _]. congruence.
    - intros q Hq H. cbn [st4 set_predicates s_predicates] in H. rewrite dict_get_of_list in H by apply string_eqb_equiv.
      apply (Permutation_in _ (Permutation_sym P4)) in Hq.
      assert (X : exists p, In p (opt_list qps) /\ same_atom p q).
      { clear - S4 Hq. induction S4 as [|a b l m Q S' IH]; [contradiction|]. destruct Hq as [<-|Hq].
        - exists a. split; auto. now left.
        - destruct (IH Hq) as (x & ? & ?). exists x. split; auto. now right. }
      destruct X as (p & Hp & SA & _).
      match type of H with dict_get _ _ ?l = _ => pose proof (dict_get_memb String.eqb (fst q) l) as M end.
      rewrite H in M. apply memb_string_not_In in M. apply M. rewrite map_rev. apply -> in_rev.
      rewrite map_map. apply in_map_iff. exists p. auto. }
  destruct (derived_all d st4 (sorted_by show_derived (d_derived d)) KN eq_refl NT (sorted_by_Forall _ _ _ ED)) as (qds & X6 & S6).
  destruct (actions_all d (sorted_by (fun a => show_action a +++ nl) (d_actions d)) (sorted_by_Forall _ _ _ EA) st4 KN)
    as (qas & st5 & X7 & S7).
  pose proof (runs_app _ _ _ _ _ _ _ _ X6 X7) as X8. apply mapM_runs in X8. fold defs in X8.
  set (tyl := match ty with Some t => t | None => [] end).
  destruct (rebuilt d (opt_list o1) tyl (opt_list cs) (opt_list qps) ps0 (opt_list qfs) fs0 qds
     (sorted_by show_derived (d_derived d)) qas (sorted_by (fun a => show_action a +++ nl) (d_actions d)) B NF O1)
    as (q & MK & EQ & CQ & DQ & AQ); auto; try (apply sorted_by_perm).
  { unfold tyl. destruct ty; auto. rewrite T2. constructor. }
  exists q. split; auto. split; [|split; auto; split; [|split]].
  3:{ rewrite DQ. eapply alike_dedup; [apply derived_eqb_equiv|apply same_derived_eqb| |exact S6|apply sorted_by_perm].
      destruct B as (? & ? & ? & ? & ? & ? & ? & ? & H). apply mk_domain_inv in H as (_ & _ & _ & _ & _ & _ & _ & -> & _).
      apply dedup_NoDupE, derived_eqb_equiv. }
  3:{ rewrite AQ. eapply alike_dedup; [apply action_eqb_equiv|apply same_action_eqb| |exact S7|apply sorted_by_perm].
      destruct B as (? & ? & ? & ? & ? & ? & ? & ? & H). apply mk_domain_inv in H as (_ & _ & _ & _ & _ & _ & _ & _ & _ & -> & _).
      apply dedup_NoDupE, action_eqb_equiv. }
  2:{ intros c. rewrite CQ. rewrite dedup_id; [|apply const_eqb_equiv|].
      - split; apply Permutation_in; [exact C3|now symmetry].
      - apply ProblemText_facts.NoDup_names. eapply Permutation_NoDup; [|exact CN]. symmetry. now apply Permutation_map. }
  unfold parse_domain_fresh.
  rewrite (parse_domain_rule _ _ _ _ DT). unfold domain_rule, domain_sections.
  pose proof (heads_defs (sorted_by show_derived (d_derived d)) (sorted_by (fun a => show_action a +++ nl) (d_actions d))) as H0.
  fold defs in H0.
  pose proof (heads_opt ":functions" (fun_section (d_functions d)) _ _ H0) as H5.
  pose proof (heads_opt ":predicates" (pred_section (d_predicates d)) _ _ H5) as H4.
  pose proof (heads_opt ":constants" (const_section (d_constants d)) _ _ H4) as H3.
  pose proof (heads_opt ":types" o _ _ H3) as H2.
  rewrite (section_opt ":requirements" _ _ _ H2) by (cbn; intuition discriminate).
  unfold bindM at 1. rewrite X1.
  rewrite (section_opt ":types" _ _ _ H3) by (cbn; intuition discriminate).
  unfold bindM at 1. rewrite X2.
  rewrite (section_opt ":constants" _ _ _ H4) by (cbn; intuition discriminate).
  unfold bindM at 1. rewrite X3.
  rewrite (section_opt ":predicates" _ _ _ H5) by (cbn; intuition discriminate).
  unfold bindM at 1. rewrite X4.
  rewrite (section_opt ":functions" _ _ _ H0) by (cbn; intuition discriminate).
  unfold bindM at 1. rewrite X5.
  unfold bindM at 1. rewrite X8. rewrite !flat_map_app, flat_map_inl, flat_map_inr, flat_map_inl_r, flat_map_inr_l, app_nil_r.
  cbn [app]. unfold bindM, modify, ret. cbn [snd]. rewrite <- MK. unfold tyl. now destruct ty.
Qed.
Theorem domain_read_back d : domain_built d -> expressible_domain d -> NoDupE atom_eqb (map fst (d_functions d)) ->
  exists s q, show_domain d = Ok s /\ parse_domain_fresh s = Ok q /\ domain_eqb q d = true
    /\ (forall c, In c (d_constants q) <-> In c (d_constants d)).
Proof.
  intros B E N. destruct (domain_read_alike d B E N) as (s & q & H1 & H2 & H3 & H4 & _). eauto 6.
Qed.
