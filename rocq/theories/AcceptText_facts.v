(** Accepted texts have a tree of the generated parser: sections, domains, problems and plans. *)
From Coq Require Import String Ascii List Bool NArith Arith Lia.
From Verif Require Import Py Names Reqs Logic Core Lexer TypedList Parser Spec_Parse Py_facts Names_facts Lex_facts
     Parse_facts GD_facts Text_facts Domain_facts Problem_facts Action_facts Spec_Grammar Words_facts Grammar_facts GrammarText_facts
     Spec_Lark AcceptBase_facts AcceptForm_facts.
Import ListNotations.
Open Scope string_scope.
Open Scope list_scope.

Lemma names_star gs : Forall (matches Name) gs -> Aw (Star (T "NAME")) gs.
Proof. induction 1 as [|g gs H _ IH]; [apply star_nil|]. apply (star_cons _ [g]); auto. lits. Qed.
Lemma alt_In l e ws : In e l -> Aw e ws -> Aw (Alt l) ws.
Proof. intros H (w & E & K). exists w. split; [exact E|]. intros nx. destruct (K nx) as [cs T]. eexists. eapply P_Alt; eauto. Qed.
(** ** requirements *)
Lemma require_key_rule s r : require_key s = Some r -> wf s -> Aw (N "require_key") (ww s).
Proof.
  intros H W. destruct s as [[]|]; try discriminate. wfs. cbn [require_key] in H.
  assert (X : forallb (fun k => match (match k with String _ v => match req_of_value v with Ok OBJECT_FLUENTS => None | Ok r => Some r | Err _ => None end | "" => None end) with
      | Some _ => existsb (fun t => match assoc t terminals with Some (Lit w) => String.eqb w k | _ => false end)
           ["TYPING"; "STRIPS"; "EQUALITY"; "NON_DETERMINISTIC"; "NEG_PRECONDITION";
                        "DIS_PRECONDITION"; "EXISTENTIAL_PRECONDITIONS"; "UNIVERSAL_PRECONDITIONS";
                        "QUANTIFIED_PRECONDITIONS"; "ADL"; "DERIVED_PREDICATES"; "CONDITIONAL_EFFECTS";
                        "NUMERIC_FLUENTS"; "FLUENTS"; "ACTION_COSTS"]
      | None => true end) colon_keywords = true) by (vm_compute; reflexivity).
  pose proof (proj1 (forallb_forall _ _) X s W) as Y. clear X W. destruct s as [|a v]; [discriminate|]. cbv beta iota in Y.
  change (require_key (SAtom (TKw (String a v)))) with (match req_of_value v with Ok OBJECT_FLUENTS => None | Ok r => Some r | Err _ => None end) in H. rewrite H in Y.
  apply existsb_exists in Y as (t & I & E). destruct (assoc t terminals) as [[w| |]|] eqn:A; try discriminate. apply String.eqb_eq in E. subst w.
  eapply (rule "require_key"); [reflexivity|]. apply (alt_In _ (T t));
    [|apply lit; [exact A| |]; clear - I; repeat (destruct I as [<-|I]; [reflexivity|]); destruct I].
  change (In (T t) (map T ["TYPING"; "STRIPS"; "EQUALITY"; "NON_DETERMINISTIC"; "NEG_PRECONDITION";
                        "DIS_PRECONDITION"; "EXISTENTIAL_PRECONDITIONS"; "UNIVERSAL_PRECONDITIONS";
                        "QUANTIFIED_PRECONDITIONS"; "ADL"; "DERIVED_PREDICATES"; "CONDITIONAL_EFFECTS";
                        "NUMERIC_FLUENTS"; "FLUENTS"; "ACTION_COSTS"])). now apply in_map.
Qed.
Lemma require_keys_rule l rs : require_keys l = Ok rs -> wfl l -> Aw (N "requirements") (ww (section_sx ":requirements" l)).
Proof.
  intros H W. assert (X : l <> [] /\ mapO require_key l = Some rs).
  { unfold require_keys in H. destruct l; [discriminate|]. split; [discriminate|]. destruct (mapO require_key (s :: l)); [now injection H as ->|discriminate]. }
  destruct X as [N0 M]. eapply (rule "requirements"); [reflexivity|]. unfold section_sx.
  apply (seq_of _ [["("]; [":requirements"]; wl l; [")"]]); [|words]. pieces. apply plus_all; auto. clear N0 H.
  revert rs M W. induction l as [|x l IH]; intros rs M W; [constructor|]. cbn in M. destruct (require_key x) eqn:E; [|discriminate]. destruct (mapO require_key l); [|discriminate].
  wfs. constructor; [eapply require_key_rule; eauto|eapply IH; eauto].
Qed.

(** ** lists of names and skeletons *)
Lemma types_rule l d : typed_list_name l = Ok d -> wfl l -> Aw (N "types") (ww (section_sx ":types" l)).
Proof.
  intros H W. apply typed_list_name_tl in H as (ts & H). eapply (rule "types"); [reflexivity|]. unfold section_sx.
  apply (seq_of _ [["("]; [":types"]; wl l; [")"]]); [|words]. pose proof (typed_names_rule _ _ H W). pieces.
Qed.
Lemma constants_rule l d : typed_list_name l = Ok d -> wfl l -> Aw (N "constants") (ww (section_sx ":constants" l)).
Proof.
  intros H W. apply typed_list_name_tl in H as (ts & H). eapply (rule "constants"); [reflexivity|]. unfold section_sx.
  apply (seq_of _ [["("]; [":constants"]; wl l; [")"]]); [|words]. pose proof (typed_names_rule _ _ H W). pieces.
Qed.
Lemma objects_rule l d : typed_list_name l = Ok d -> wfl l -> Aw (N "objects") (ww (section_sx ":objects" l)).
Proof.
  intros H W. apply typed_list_name_tl in H as (ts & H). eapply (rule "objects"); [reflexivity|]. unfold section_sx.
  apply (seq_of _ [["("]; [":objects"]; wl l; [")"]]); [|words]. pose proof (typed_names_rule _ _ H W). pieces.
Qed.
Lemma skeleton_rule s a : atomic_formula_skeleton s = Ok a -> wf s -> Aw (N "atomic_formula_skeleton") (ww s).
Proof.
  intros H W. destruct s as [|[|[[]|] vs]]; try discriminate. cbn [atomic_formula_skeleton] in H. apply bind_Ok in H as (tl & V & _). wfs.
  apply typed_list_variable_tl in V as (ts & V). eapply (rule "atomic_formula_skeleton"); [reflexivity|].
  apply (seq_of _ [["("]; [s]; wl vs; [")"]]); [|words]. pose proof (typed_vars_rule _ _ V W). pieces.
Qed.
Lemma predicates_rule l ps : match l with [] => syntax | _ => mapR atomic_formula_skeleton l end = Ok ps -> wfl l -> Aw (N "predicates") (ww (section_sx ":predicates" l)).
Proof.
  intros H W. assert (X : l <> [] /\ mapR atomic_formula_skeleton l = Ok ps) by (destruct l; [discriminate|split; [discriminate|exact H]]).
  destruct X as [N0 M]. eapply (rule "predicates"); [reflexivity|]. unfold section_sx.
  apply (seq_of _ [["("]; [":predicates"]; wl l; [")"]]); [|words]. pieces. apply plus_all; auto. eapply mapR_rule; eauto.
  apply Forall_forall. intros x _ y E Wx. eapply skeleton_rule; eauto.
Qed.
Lemma function_skeleton_rule s a : atomic_function_skeleton s = Ok a -> wf s -> Aw (N "atomic_function_skeleton") (ww s).
Proof.
  intros H W. destruct s as [|[|[[]|] vs]]; try discriminate. cbn [atomic_function_skeleton] in H. apply bind_Ok in H as (tl & V & _). wfs.
  apply typed_list_variable_tl in V as (ts & V). eapply (rule "atomic_function_skeleton"); [reflexivity|].
  apply (seq_of _ [["("]; [s]; wl vs; [")"]]); [|words]. pose proof (typed_vars_rule _ _ V W). pieces.
Qed.
Lemma tl_functions_X l : forall seen ts, tl_functions seen l = Ok ts -> wfl l ->
  exists w, map snd w = wl l /\ forall nx, PX (N "atomic_function_skeleton") (N "f_type_def") seen w nx.
Proof.
  remember (length l) as n. assert (Hn : length l <= n) by lia. clear Heqn. revert l Hn.
  induction n as [|n IH]; intros l Hn seen ts H W; (destruct l as [|x r]; [exists []; split; [reflexivity|intros; apply PX_nil]|]); [cbn in Hn; lia|].
  cbn in Hn. apply wfl_cons in W as [W1 W].
  assert (It : bind (atomic_function_skeleton x) (fun f => bind (tl_functions true r) (fun ts => Ok (IItem f :: ts))) = Ok ts ->
    exists w, map snd w = wl (x :: r) /\ forall nx, PX (N "atomic_function_skeleton") (N "f_type_def") seen w nx).
  { intros E. apply bind_Ok in E as (a & E1 & E). apply bind_Ok in E as (ts' & E2 & _). destruct (IH r) with (seen := true) (ts := ts') as (w & Ew & K); auto; [lia|].
    destruct (function_skeleton_rule _ _ E1 W1) as (u & Eu & Ku). exists (u ++ w). split; [rewrite map_app, wl_cons; congruence|]. intros nx. apply PX_item; auto. }
  destruct x as [[]|]; try (apply It; exact H). clear It.
  destruct r as [|[[]|] r]; try discriminate. cbn [tl_functions] in H. destruct (String.eqb_spec s "-") as [->|]; [|discriminate]. destruct seen; [|discriminate]. cbn [andb] in H.
  destruct (String.eqb_spec s0 "number") as [->|]; [|discriminate]. apply bind_Ok in H as (ts' & E & _). wfs.
  destruct (IH r) with (seen := false) (ts := ts') as (w & Ew & K); auto; [cbn in Hn; lia|].
  exists (SEP :: [("TYPE_NUMBER", "number")] ++ w). split; [cbn [map app]; rewrite Ew, !wl_cons; reflexivity|].
  intros nx. apply PX_sep; [|auto]. eapply X_rule; [reflexivity|]. apply (X_word "TYPE_NUMBER"). now apply lit_at.
Qed.
Lemma functions_rule l fs : functions_section l = Ok fs -> wfl l -> Aw (N "functions") (ww (section_sx ":functions" l)).
Proof.
  intros H W. assert (X : l <> [] /\ exists ts, tl_functions false l = Ok ts).
  { unfold functions_section in H. destruct l; [discriminate|]. split; [discriminate|]. apply bind_Ok in H as (ts & E & _). eauto. }
  destruct X as (N0 & ts & E). eapply (rule "functions"); [reflexivity|]. unfold section_sx.
  apply (seq_of _ [["("]; [":functions"]; wl l; [")"]]); [|words]. pieces.
  eapply (rule "f_typed_list_atomic_function_skeleton"); [reflexivity|]. destruct (tl_functions_X _ _ _ E W) as (w & Ew & K). exists w. split; [exact Ew|].
  intros nx. apply PX_done_plus; [|auto]. intros ->.
  destruct l as [|x l]; [contradiction|]. rewrite wl_cons in Ew. symmetry in Ew. apply app_eq_nil in Ew as [X _]. now apply ww_nonempty in X.
Qed.

(** ** actions and derived predicates *)
Lemma structure_rule s st st' x : structure_def s st = (st', Ok x) -> wf s -> Aw (N "structure_def") (ww s).
Proof.
  intros H W. eapply (rule "structure_def"); [reflexivity|].
  apply structure_def_st in H as [(body & a & -> & -> & H)|(body & d & -> & -> & H)]; wfs'.
  - apply action_def_st in H as (n & ps & body' & vs & b & -> & Hp & Hb & _).
    apply action_parameters_st in Hp as (tl & vars & V & _). apply typed_list_variable_tl in V as (ts & V).
    apply action_body_inv in Hb as (p & e & -> & Hx & Hy). wfs'. rename H0 into K1, H1 into Wn, H2 into K2, H3 into Wps. 
    eapply (alt 0); [reflexivity|]. eapply (rule "action_def"); [reflexivity|]. unfold section_sx.
    match goal with H : wf p |- _ => pose proof (emptyor_pregd_rule _ (domain_vars_ok st') _ _ Hx H) as Dp end.
    match goal with H : wf e |- _ => pose proof (emptyor_effect_rule _ (domain_vars_ok st') _ _ Hy H) as De end.
    apply (seq_of _ [["("]; [":action"]; [n]; [":parameters"]; ww (SList ps); [":precondition"] ++ ww p ++ [":effect"] ++ ww e; [")"]]); [|words].
    pieces.
    + eapply (rule "action_parameters"); [reflexivity|]. apply (seq_of _ [["("]; wl ps; [")"]]); [|words]. pose proof (typed_vars_rule _ _ V K2). pieces.
    + eapply (rule "action_body_def"); [reflexivity|]. apply (seq_of _ [[":precondition"] ++ ww p; [":effect"] ++ ww e]); [|words].
      pieces; apply opt_some; [apply (seq_of _ [[":precondition"]; ww p])|apply (seq_of _ [[":effect"]; ww e])]; pieces; words.
  - pose proof H as H'. apply derived_def_st in H' as (_ & h & y & ->). cbn [derived_def] in H. apply bindM_Ok in H as (st1 & hd & A & H). apply ret_Ok in A as [-> A].
    apply bindM_Ok in H as (st2 & c & G & _). apply reads_Ok in G as [-> G]. wfs'.
    eapply (alt 1); [reflexivity|]. eapply (rule "derived_predicates"); [reflexivity|]. unfold section_sx.
    apply (seq_of _ [["("]; [":derived"]; ww h; ww y; [")"]]); [|words]. pieces; [eapply skeleton_rule; eauto|].
    eapply gd_rule; eauto using domain_vars_ok.
Qed.
Lemma structures_rule l st st' xs : mapM structure_def l st = (st', Ok xs) -> wfl l -> Aw (Star (N "structure_def")) (wl l).
Proof.
  intros H W. apply star_all. apply mapM_runs in H. apply wfl_Forall in W. induction H; constructor; inversion W; subst; auto. eapply structure_rule; eauto.
Qed.

Lemma opt_rule k n o : (forall l, o = Some l -> Aw (N n) (ww (section_sx k l))) -> Aw (Opt (N n)) (wl (opt_section k o)).
Proof.
  intros H. destruct o as [l|]; [|apply opt_none]. apply opt_some. specialize (H l eq_refl). cbn [opt_section]. rewrite wl_cons, wl_nil, app_nil_r. exact H.
Qed.
Lemma opt_wf k o l : wfl (opt_section k o) -> o = Some l -> wfl l.
Proof. intros W ->. cbn [opt_section] in W. now wfs'. Qed.
(** ** domains *)
Lemma domain_rule_rule l st st' d : parse_domain_sexp l st = (st', Ok d) -> wfl l -> Aw (N "domain") (wl l).
Proof.
  intros H W. unfold parse_domain_sexp in H. 
  destruct l as [|[|[|x1 [|[|[|x2 [|x3 [|]]]] secs]]] [|]]; try (apply ret_Ok in H as [_ H]; discriminate);
    try (destruct x1 as [[]|]; apply ret_Ok in H as [_ H]; discriminate);
    try (destruct x1 as [[]|]; try (apply ret_Ok in H as [_ H]; discriminate); destruct x2 as [[]|]; apply ret_Ok in H as [_ H]; discriminate);
    try (destruct x1 as [[]|]; try (apply ret_Ok in H as [_ H]; discriminate); destruct x2 as [[]|]; try (apply ret_Ok in H as [_ H]; discriminate); destruct x3 as [[]|]; apply ret_Ok in H as [_ H]; discriminate).
  destruct x1 as [[]|]; try (apply ret_Ok in H as [_ H]; discriminate). destruct x2 as [[]|]; try (apply ret_Ok in H as [_ H]; discriminate).
  destruct x3 as [[]|]; try (apply ret_Ok in H as [_ H]; discriminate).
  destruct (String.eqb_spec s "define") as [->|]; [|apply ret_Ok in H as [_ H]; discriminate].
  destruct (String.eqb_spec s0 "domain") as [->|]; [|apply ret_Ok in H as [_ H]; discriminate]. cbn [andb] in H.
  apply domain_rule_inv in H as (o1 & l1 & st1 & rs & o2 & l2 & st2 & ty & o3 & l3 & st3 & cs & o4 & l4 & st4 & ps & o5 & l5 & fs & st6 & xs & S1 & H1 & S2 & H2 & S3 & H3 & S4 & H4 & S5 & H5 & H6 & _ & _).
  apply section_inv in S1, S2, S3, S4, S5. subst. wfs'.
  match goal with H : matches Name s1 |- _ => rename H into Ms end.
  match goal with H : wfl (opt_section ":requirements" _) |- _ => rename H into W1 end. match goal with H : wfl (opt_section ":types" _) |- _ => rename H into W2 end.
  match goal with H : wfl (opt_section ":constants" _) |- _ => rename H into W3 end. match goal with H : wfl (opt_section ":predicates" _) |- _ => rename H into W4 end.
  match goal with H : wfl (opt_section ":functions" _) |- _ => rename H into W5 end. match goal with H : wfl l5 |- _ => rename H into W6 end.
  eapply (rule "domain"); [reflexivity|].
  apply (seq_of _ [["("]; ["define"]; ["("; "domain"; s1; ")"]; wl (opt_section ":requirements" o1); wl (opt_section ":types" o2); wl (opt_section ":constants" o3);
     wl (opt_section ":predicates" o4); wl (opt_section ":functions" o5); wl l5; [")"]]).
  - pieces.
    + eapply (rule "domain_def"); [reflexivity|]. apply (seq_of _ [["("]; ["domain"]; [s1]; [")"]]); [|reflexivity]. pieces.
    + apply opt_rule. intros l ->. pose proof (opt_wf _ _ _ W1 eq_refl) as W'. apply optM_Ok in H1 as (a & H1 & _). unfold requirements in H1.
      apply bindM_Ok in H1 as (? & k & K & _). apply ret_Ok in K as [_ K]. eapply require_keys_rule; eauto.
    + apply opt_rule. intros l ->. pose proof (opt_wf _ _ _ W2 eq_refl) as W'. apply optM_Ok in H2 as (a & H2 & _). unfold types_section in H2.
      apply bindM_Ok in H2 as (? & k & K & _). apply ret_Ok in K as [_ K]. eapply types_rule; eauto.
    + apply opt_rule. intros l ->. pose proof (opt_wf _ _ _ W3 eq_refl) as W'. apply optM_Ok in H3 as (a & H3 & _). unfold constants_section in H3.
      apply bindM_Ok in H3 as (? & k & K & _). apply ret_Ok in K as [_ K]. eapply constants_rule; eauto.
    + apply opt_rule. intros l ->. pose proof (opt_wf _ _ _ W4 eq_refl) as W'. apply optM_Ok in H4 as (a & H4 & _). unfold predicates_section in H4.
      apply bindM_Ok in H4 as (? & k & K & _). apply ret_Ok in K as [_ K]. eapply predicates_rule; eauto.
    + apply opt_rule. intros l ->. pose proof (opt_wf _ _ _ W5 eq_refl) as W'. apply optM_Ok in H5 as (a & H5 & _). apply ret_Ok in H5 as [_ K]. eapply functions_rule; eauto.
    + eapply structures_rule; eauto.
  - words. rewrite !wl_app, <- ?app_assoc. reflexivity.
Qed.

(** ** problems *)
Lemma basic_rule s f : basic_function_term s = Ok f -> wf s -> Aw (N "basic_function_term") (ww s).
Proof.
  intros H W. eapply (rule "basic_function_term"); [reflexivity|]. destruct s as [[]|[|[[]|] args]]; try discriminate; wfs.
  - eapply (alt 0); [reflexivity|]. lits.
  - cbn [basic_function_term] in H. destruct (mapO Parser.word args) as [ps|] eqn:E; [|discriminate]. destruct (words_wf _ _ E W) as [Ew F].
    eapply (alt 1); [reflexivity|]. apply (seq_of _ [["("]; [s]; ps; [")"]]); [|words; now rewrite Ew]. pieces. now apply names_star.
Qed.
Lemma atomic_name_rule a p t objs s f : rl a = Some (Seq [L; N p; Star (T "NAME"); R]) -> rl p = Some (T t) -> base t = "NAME" ->
  (forall n args, s = SList (SAtom (TWord n) :: args) -> ~ In n (taken t)) -> atomic_formula_name objs s = Ok f -> wf s -> Aw (N a) (ww s).
Proof.
  intros Ra Rp Bt Nt H W. eapply rule; [exact Ra|]. destruct s as [[]|[|[[]|] args]]; try discriminate; wfs.
  cbn [atomic_formula_name] in H. destruct (mapO Parser.word args) as [ps|] eqn:E; [|discriminate]. destruct (words_wf _ _ E W) as [Ew F].
  apply (seq_of _ [["("]; [s]; ps; [")"]]); [|words; now rewrite Ew]. pieces; [eapply rule; [exact Rp|]; apply word_of; apply name_at; eauto|now apply names_star].
Qed.
Lemma init_el_rule objs s f : init_el objs s = Ok f -> wf s -> Aw (N "init_el") (ww s).
Proof.
  intros H W. eapply (rule "init_el"); [reflexivity|]. destruct s as [[]|[|[[]|] args]]; try discriminate.
  - eapply (alt 0); [reflexivity|]. eapply (rule "literal_name"); [reflexivity|]. cbn [init_el] in H. destruct (String.eqb_spec s "not") as [->|].
    + destruct args as [|x [|]]; try discriminate. apply bind_Ok in H as (g & M & _). wfs. eapply (alt 1); [reflexivity|].
      apply (seq_of _ [["("]; ["not"]; ww x; [")"]]); [|words]. pieces. eapply (atomic_name_rule "atomic_formula_name" "predicate" "NAME"); eauto.
    + eapply (alt 0); [reflexivity|]. eapply (atomic_name_rule "atomic_formula_name@init" "predicate@init" "NAME@init"); eauto.
      intros n' args' E [I|[]]. injection E as <- <-. congruence.
  - cbn [init_el] in H. destruct args as [|x [|[[]|] [|]]]; try discriminate. destruct (String.eqb_spec s "=") as [->|]; [|discriminate].
    apply bind_Ok in H as (g & M & _). wfs. eapply (alt 1); [reflexivity|].
    apply (seq_of _ [["("]; ["="]; ww x; [s0]; [")"]]); [|words]. pieces; [eapply basic_rule; eauto|eapply (rule "num_literal"); [reflexivity|lits]].
Qed.
Lemma metric_f_exp_rule s : forall f, metric_f_exp s = Ok f -> wf s -> Aw (N "metric_f_exp") (ww s).
Proof.
  induction s as [t|l IH] using sexp_ind'; intros f H W.
  - eapply (rule "metric_f_exp"); [reflexivity|]. destruct t; try discriminate.
    + eapply (alt 3); [reflexivity|]. eapply (basic_rule _ f); auto.
    + wfs. eapply (alt 4); [reflexivity|]. lits.
  - eapply (rule "metric_f_exp"); [reflexivity|]. destruct l as [|[[]|] args]; try discriminate.
    + eapply (alt 3); [reflexivity|]. apply (basic_rule _ f); auto.
    + cbn [metric_f_exp] in H. destruct (arith_op s (length args)) as [k|] eqn:A; [|discriminate]. apply bind_Ok in H as (ops & M & _).
      inversion IH as [|? ? _ IH']; subst. wfs. pose proof (arith_rule (N "metric_f_exp") s args k A (mapR_rule metric_f_exp (N "metric_f_exp") args ops M IH' W)) as X.
      eapply alt_weaken; [|exact X]. cbn. tauto.
Qed.
Lemma metric_rule l m : metric_spec l = Ok m -> wfl l -> Aw (N "metric_spec") (ww (section_sx ":metric" l)).
Proof.
  intros H W. unfold metric_spec in H. destruct l as [|[[]|] [|e [|]]]; try discriminate. destruct (memb String.eqb s ["maximize"; "minimize"]) eqn:Mo; [|discriminate].
  apply bind_Ok in H as (f & M & _). wfs. eapply (rule "metric_spec"); [reflexivity|]. unfold section_sx.
  apply (seq_of _ [["("]; [":metric"]; [s]; ww e; [")"]]); [|words]. pieces; [|eapply metric_f_exp_rule; eauto].
  eapply (rule "optimization"); [reflexivity|]. apply memb_string_In in Mo as [<-|[<-|[]]]; [eapply (alt 0)|eapply (alt 1)]; try reflexivity; lits.
Qed.
Lemma problem_rule_rule objs0 l p : parse_problem_sexp objs0 l = Ok p -> wfl l -> Aw (N "problem") (wl l).
Proof.
  intros H W. unfold parse_problem_sexp in H.
  repeat match type of H with
    | match ?x with _ => _ end = Ok _ => is_var x; destruct x; try discriminate H
    end.
  match type of H with (if _ && _ && is_kw _ ?k then problem_rule _ ?n ?dn ?secs else _) = _ => rename k into k3, n into s1, dn into s2 end.
  destruct (String.eqb_spec s "define") as [->|]; [|discriminate]. destruct (String.eqb_spec s0 "problem") as [->|]; [|discriminate].
  cbn [andb] in H. destruct (is_kw ":domain" k3) eqn:K; [|discriminate]. destruct k3 as [[]|]; try discriminate. apply String.eqb_eq in K. subst.
  apply problem_rule_inv in H as (o1 & o2 & inits & g & o5 & rs & os & init & goal & m & -> & H1 & H2 & H3 & H4 & H5 & _).
  unfold problem_sections in W. wfs'.
  match goal with H : matches Name s1 |- _ => rename H into Ms1 end. match goal with H : matches Name s2 |- _ => rename H into Ms2 end.
  match goal with H : wfl (opt_section ":requirements" _) |- _ => rename H into W1 end. match goal with H : wfl (opt_section ":objects" _) |- _ => rename H into W2 end.
  match goal with H : wfl inits |- _ => rename H into W3 end. match goal with H : wf g |- _ => rename H into W4 end.
  match goal with H : wfl (opt_section ":metric" _) |- _ => rename H into W5 end.
  eapply (rule "problem"); [reflexivity|].
  apply (seq_of _ [["("]; ["define"]; ["("; "problem"; s1; ")"]; ["("; ":domain"; s2; ")"]; wl (opt_section ":requirements" o1); wl (opt_section ":objects" o2);
     ww (section_sx ":init" inits); ww (section_sx ":goal" [g]); wl (opt_section ":metric" o5); [")"]]).
  - pieces.
    + eapply (rule "problem_def"); [reflexivity|]. apply (seq_of _ [["("]; ["problem"]; [s1]; [")"]]); [|reflexivity]. pieces.
    + eapply (rule "problem_domain"); [reflexivity|]. apply (seq_of _ [["("]; [":domain"]; [s2]; [")"]]); [|reflexivity]. pieces.
    + apply opt_rule. intros l ->. pose proof (opt_wf _ _ _ W1 eq_refl) as W'. cbn in H1. apply bind_Ok in H1 as (a & H1 & _). eapply require_keys_rule; eauto.
    + apply opt_rule. intros l ->. pose proof (opt_wf _ _ _ W2 eq_refl) as W'. cbn in H2. apply bind_Ok in H2 as (a & H2 & _). unfold objects_section in H2.
      apply bind_Ok in H2 as (a' & H2 & _). eapply objects_rule; eauto.
    + eapply (rule "init"); [reflexivity|]. unfold section_sx. apply (seq_of _ [["("]; [":init"]; wl inits; [")"]]); [|words]. pieces. apply star_all.
      eapply mapR_rule; eauto. apply Forall_forall. intros x _ y E Wx. eapply init_el_rule; eauto.
    + eapply (rule "goal"); [reflexivity|]. unfold section_sx. apply (seq_of _ [["("]; [":goal"]; ww g; [")"]]); [|words]. pieces. eapply gd_rule; eauto using problem_vars_ok.
    + apply opt_rule. intros l ->. pose proof (opt_wf _ _ _ W5 eq_refl) as W'. cbn in H5. apply bind_Ok in H5 as (a & H5 & _). eapply metric_rule; eauto.
  - words. unfold problem_sections. rewrite !wl_app, !wl_cons, <- ?app_assoc. reflexivity.
Qed.

(** ** plans *)
Lemma ground_action_rule s a : ground_action s = Ok a -> wf s -> Aw (N "ground_action") (ww s).
Proof.
  intros H W. eapply (rule "ground_action"); [reflexivity|]. destruct s as [[]|[|[[]|] args]]; try discriminate; wfs.
  cbn [ground_action] in H. destruct (mapO Parser.word args) as [ps|] eqn:E; [|discriminate]. destruct (words_wf _ _ E W) as [Ew F].
  apply (seq_of _ [["("]; [s]; ps; [")"]]); [|words; now rewrite Ew]. pieces; [eapply (rule "predicate"); [reflexivity|lits]|now apply names_star].
Qed.
Lemma plan_rule l p : mapR ground_action l = Ok p -> wfl l -> Aw (N "plan") (wl l).
Proof.
  intros H W. eapply (rule "plan"); [reflexivity|]. apply star_all. eapply mapR_rule; eauto. apply Forall_forall. intros x _ y E Wx. eapply ground_action_rule; eauto.
Qed.

(** ** texts *)
Lemma text_rule n s l : read_text s = Some l -> (wfl l -> Aw (N n) (wl l)) -> exists p w, tree word_at (N n) [p] w the_end /\ spelled (map snd w) s.
Proof.
  intros H K. apply read_inv in H. unfold read_text in H. assert (W : wfl l) by (unfold wfl; rewrite <- H; apply lex_wf).
  destruct (K W) as (w & Ew & Kw). destruct (Kw the_end) as [cs T]. pose proof (X_lexemes _ _ _ (Kw the_end)) as F.
  unfold wl in Ew. rewrite <- H in Ew. inversion T; subst. eexists. exists w. split; [exact T|]. rewrite Ew. apply lex_spelled.
  intros B. apply word_nonempty. assert (I : In "" (map snd w)) by (rewrite Ew; apply (in_map spell _ _ B)).
  apply in_map_iff in I as (x & Ex & I). rewrite Forall_forall in F. apply F in I. rewrite Ex in I. exists (fst x). exact I.
Qed.
Theorem domain_has_tree s st st' d : parse_domain s st = (st', Ok d) -> exists p w, tree word_at (N "domain") [p] w the_end /\ spelled (map snd w) s.
Proof.
  intros H. unfold parse_domain in H. destruct (read_text s) as [l|] eqn:E; [|try apply ret_Ok in H as [_ H]; discriminate].
  eapply text_rule; [exact E|]. eapply domain_rule_rule; eauto.
Qed.
Theorem problem_has_tree objs0 s p0 : parse_problem_from objs0 s = Ok p0 -> exists p w, tree word_at (N "problem") [p] w the_end /\ spelled (map snd w) s.
Proof.
  intros H. unfold parse_problem_from in H. destruct (read_text s) as [l|] eqn:E; [|discriminate].
  eapply text_rule; [exact E|]. eapply problem_rule_rule; eauto.
Qed.
Theorem plan_has_tree s pl : parse_plan s = Ok pl -> exists p w, tree word_at (N "plan") [p] w the_end /\ spelled (map snd w) s.
Proof.
  intros H. unfold parse_plan in H. destruct (read_text s) as [l|] eqn:E; [|discriminate].
  eapply text_rule; [exact E|]. eapply plan_rule; eauto.
Qed.
