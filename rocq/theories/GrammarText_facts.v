(** Accepted texts are derived from the grammar: sections, domains, problems and plans. *)
From Coq Require Import String Ascii List Bool NArith Arith Lia.
From Verif Require Import Py Names Reqs Logic Core Lexer TypedList Parser Spec_Parse Py_facts Names_facts Lex_facts
     Parse_facts GD_facts Text_facts Domain_facts Problem_facts Action_facts Spec_Grammar Words_facts Grammar_facts.
Import ListNotations.
Open Scope string_scope.
Open Scope list_scope.

Lemma wl_app a b : wl (a ++ b) = wl a ++ wl b.
Proof. unfold wl. rewrite flat_map_app. apply map_app. Qed.
Lemma wfl_app a b : wfl (a ++ b) <-> wfl a /\ wfl b.
Proof. unfold wfl. rewrite flat_map_app. apply Forall_app. Qed.
Ltac wfs' := repeat first [progress wfs | match goal with
  | H : wfl (_ ++ _) |- _ => apply wfl_app in H as [? H]
  | H : wf (section_sx _ _) |- _ => unfold section_sx in H; apply wf_list in H
  end].

(** ** requirements *)
Lemma require_key_rule s r : require_key s = Some r -> wf s -> D (N "require_key") (ww s).
Proof.
  intros H W. destruct s as [[]|]; try discriminate. wfs. cbn [require_key] in H.
  assert (X : forallb (fun k => match (match k with String _ v => match req_of_value v with Ok OBJECT_FLUENTS => None | Ok r => Some r | Err _ => None end | "" => None end) with
      | Some _ => existsb (fun t => match assoc t terminals with Some (Lit w) => String.eqb w k | _ => false end)
           ["TYPING"; "STRIPS"; "EQUALITY"; "NON_DETERMINISTIC"; "NEG_PRECONDITION";
                        "DIS_PRECONDITION"; "EXISTENTIAL_PRECONDITIONS"; "UNIVERSAL_PRECONDITIONS";
                        "QUANTIFIED_PRECONDITIONS"; "ADL"; "DERIVED_PREDICATES"; "CONDITIONAL_EFFECTS";
                        "NUMERIC_FLUENTS"; "FLUENTS"; "ACTION_COSTS"]
      | None => true end) colon_keywords = true) by (vm_compute; reflexivity).
  pose proof (proj1 (forallb_forall _ _) X s W) as Y. clear X W. destruct s as [|a v]; [discriminate|]. cbv beta iota in Y.
  change (require_key (SAtom (TKw (String a v)))) with (match req_of_value v with Ok OBJECT_FLUENTS => None | Ok r => Some r | Err _ => None end) in H. rewrite H in Y.
  apply existsb_exists in Y as (t & I & E). destruct (assoc t terminals) as [[w| |]|] eqn:A; try discriminate. apply String.eqb_eq in E. subst w.
  eapply (rule "require_key"); [reflexivity|]. apply (D_Alt _ _ (T t)); [|now apply lit].
  change (In (T t) (map T ["TYPING"; "STRIPS"; "EQUALITY"; "NON_DETERMINISTIC"; "NEG_PRECONDITION";
                        "DIS_PRECONDITION"; "EXISTENTIAL_PRECONDITIONS"; "UNIVERSAL_PRECONDITIONS";
                        "QUANTIFIED_PRECONDITIONS"; "ADL"; "DERIVED_PREDICATES"; "CONDITIONAL_EFFECTS";
                        "NUMERIC_FLUENTS"; "FLUENTS"; "ACTION_COSTS"])). now apply in_map.
Qed.
Lemma require_keys_rule l rs : require_keys l = Ok rs -> wfl l -> D (N "requirements") (ww (section_sx ":requirements" l)).
Proof.
  intros H W. assert (X : l <> [] /\ mapO require_key l = Some rs).
  { unfold require_keys in H. destruct l; [discriminate|]. split; [discriminate|]. destruct (mapO require_key (s :: l)); [now injection H as ->|discriminate]. }
  destruct X as [N0 M]. eapply (rule "requirements"); [reflexivity|]. unfold section_sx.
  apply (seq_of _ [["("]; [":requirements"]; wl l; [")"]]); [|words]. pieces. apply plus_of; auto. clear N0 H.
  revert rs M W. induction l as [|x l IH]; intros rs M W; [constructor|]. cbn in M. destruct (require_key x) eqn:E; [|discriminate]. destruct (mapO require_key l); [|discriminate].
  wfs. constructor; [eapply require_key_rule; eauto|eapply IH; eauto].
Qed.

(** ** lists of names and skeletons *)
Lemma types_rule l d : typed_list_name l = Ok d -> wfl l -> D (N "types") (ww (section_sx ":types" l)).
Proof.
  intros H W. apply typed_list_name_tl in H as (ts & H). eapply (rule "types"); [reflexivity|]. unfold section_sx.
  apply (seq_of _ [["("]; [":types"]; wl l; [")"]]); [|words]. pieces. eapply typed_names_rule; eauto.
Qed.
Lemma constants_rule l d : typed_list_name l = Ok d -> wfl l -> D (N "constants") (ww (section_sx ":constants" l)).
Proof.
  intros H W. apply typed_list_name_tl in H as (ts & H). eapply (rule "constants"); [reflexivity|]. unfold section_sx.
  apply (seq_of _ [["("]; [":constants"]; wl l; [")"]]); [|words]. pieces. eapply typed_names_rule; eauto.
Qed.
Lemma objects_rule l d : typed_list_name l = Ok d -> wfl l -> D (N "objects") (ww (section_sx ":objects" l)).
Proof.
  intros H W. apply typed_list_name_tl in H as (ts & H). eapply (rule "objects"); [reflexivity|]. unfold section_sx.
  apply (seq_of _ [["("]; [":objects"]; wl l; [")"]]); [|words]. pieces. eapply typed_names_rule; eauto.
Qed.
Lemma skeleton_rule s a : atomic_formula_skeleton s = Ok a -> wf s -> D (N "atomic_formula_skeleton") (ww s).
Proof.
  intros H W. destruct s as [|[|[[]|] vs]]; try discriminate. cbn [atomic_formula_skeleton] in H. apply bind_Ok in H as (tl & V & _). wfs.
  apply typed_list_variable_tl in V as (ts & V). eapply (rule "atomic_formula_skeleton"); [reflexivity|].
  apply (seq_of _ [["("]; [s]; wl vs; [")"]]); [|words]. pieces. eapply typed_vars_rule; eauto.
Qed.
Lemma predicates_rule l ps : match l with [] => syntax | _ => mapR atomic_formula_skeleton l end = Ok ps -> wfl l -> D (N "predicates") (ww (section_sx ":predicates" l)).
Proof.
  intros H W. assert (X : l <> [] /\ mapR atomic_formula_skeleton l = Ok ps) by (destruct l; [discriminate|split; [discriminate|exact H]]).
  destruct X as [N0 M]. eapply (rule "predicates"); [reflexivity|]. unfold section_sx.
  apply (seq_of _ [["("]; [":predicates"]; wl l; [")"]]); [|words]. pieces. apply plus_of; auto. eapply mapR_rule; eauto.
  apply Forall_forall. intros x _ y E Wx. eapply skeleton_rule; eauto.
Qed.
Lemma function_skeleton_rule s a : atomic_function_skeleton s = Ok a -> wf s -> D (N "atomic_function_skeleton") (ww s).
Proof.
  intros H W. destruct s as [|[|[[]|] vs]]; try discriminate. cbn [atomic_function_skeleton] in H. apply bind_Ok in H as (tl & V & _). wfs.
  apply typed_list_variable_tl in V as (ts & V). eapply (rule "atomic_function_skeleton"); [reflexivity|].
  apply (seq_of _ [["("]; [s]; wl vs; [")"]]); [|words]. pieces. eapply typed_vars_rule; eauto.
Qed.
Lemma tl_functions_rule l : forall seen ts, tl_functions seen l = Ok ts -> wfl l -> P (N "atomic_function_skeleton") (N "f_type_def") seen (wl l).
Proof.
  remember (length l) as n. assert (Hn : length l <= n) by lia. clear Heqn. revert l Hn.
  induction n as [|n IH]; intros l Hn seen ts H W; (destruct l as [|x r]; [apply P_nil|]); [cbn in Hn; lia|].
  cbn in Hn. apply wfl_cons in W as [W1 W].
  assert (It : bind (atomic_function_skeleton x) (fun f => bind (tl_functions true r) (fun ts => Ok (IItem f :: ts))) = Ok ts -> P (N "atomic_function_skeleton") (N "f_type_def") seen (wl (x :: r))).
  { intros E. apply bind_Ok in E as (a & E1 & E). apply bind_Ok in E as (ts' & E2 & _). rewrite wl_cons. apply P_item; [eapply function_skeleton_rule; eauto|]. eapply IH; eauto. lia. }
  destruct x as [[]|]; try (apply It; exact H). clear It.
  destruct r as [|[[]|] r]; try discriminate. cbn [tl_functions] in H. destruct (String.eqb_spec s "-") as [->|]; [|discriminate]. destruct seen; [|discriminate]. cbn [andb] in H.
  destruct (String.eqb_spec s0 "number") as [->|]; [|discriminate]. apply bind_Ok in H as (ts' & E & _). wfs.
  rewrite !wl_cons, !ww_atom. cbn [spell app]. apply (P_sep _ _ ["number"]); [eapply (rule "f_type_def"); [reflexivity|lits]|]. eapply IH; eauto. cbn in Hn. lia.
Qed.
Lemma ww_nonempty s : ww s <> [].
Proof. destruct s; [discriminate|]. rewrite ww_list. discriminate. Qed.
Lemma functions_rule l fs : functions_section l = Ok fs -> wfl l -> D (N "functions") (ww (section_sx ":functions" l)).
Proof.
  intros H W. assert (X : l <> [] /\ exists ts, tl_functions false l = Ok ts).
  { unfold functions_section in H. destruct l; [discriminate|]. split; [discriminate|]. apply bind_Ok in H as (ts & E & _). eauto. }
  destruct X as (N0 & ts & E). eapply (rule "functions"); [reflexivity|]. unfold section_sx.
  apply (seq_of _ [["("]; [":functions"]; wl l; [")"]]); [|words]. pieces.
  eapply (rule "f_typed_list_atomic_function_skeleton"); [reflexivity|]. apply P_done_plus; [|eapply tl_functions_rule; eauto].
  destruct l as [|x l]; [contradiction|]. rewrite wl_cons. intros X. apply app_eq_nil in X as [X _]. now apply ww_nonempty in X.
Qed.

(** ** actions and derived predicates *)
Lemma structure_rule s st st' x : structure_def s st = (st', Ok x) -> wf s -> D (N "structure_def") (ww s).
Proof.
  intros H W. eapply (rule "structure_def"); [reflexivity|].
  apply structure_def_st in H as [(body & a & -> & -> & H)|(body & d & -> & -> & H)]; wfs'.
  - apply action_def_st in H as (n & ps & body' & vs & b & -> & Hp & Hb & _).
    apply action_parameters_st in Hp as (tl & vars & V & _). apply typed_list_variable_tl in V as (ts & V).
    apply action_body_inv in Hb as (p & e & -> & Hx & Hy). wfs'. rename H0 into K1, H1 into Wn, H2 into K2, H3 into Wps. 
    eapply (alt 0); [reflexivity|]. eapply (rule "action_def"); [reflexivity|]. unfold section_sx.
    match goal with H : wf p |- _ => pose proof (emptyor_pregd_rule _ (domain_vars_ok st') _ _ Hx H) as Dp end.
    match goal with H : wf e |- _ => pose proof (emptyor_effect_rule _ (domain_vars_ok st') _ _ Hy H) as De end.
    apply (seq_of _ [["("]; [":action"]; [n]; [":parameters"]; ww (SList ps); [":precondition"] ++ ww p ++ [":effect"] ++ ww e; [")"]]); [|words].
    pieces.
    + eapply (rule "action_parameters"); [reflexivity|]. apply (seq_of _ [["("]; wl ps; [")"]]); [|words]. pieces. eapply typed_vars_rule; eauto.
    + eapply (rule "action_body_def"); [reflexivity|]. apply (seq_of _ [[":precondition"] ++ ww p; [":effect"] ++ ww e]); [|words].
      pieces; apply D_Opt_some; [apply (seq_of _ [[":precondition"]; ww p])|apply (seq_of _ [[":effect"]; ww e])]; pieces; words.
  - pose proof H as H'. apply derived_def_st in H' as (_ & h & y & ->). cbn [derived_def] in H. apply bindM_Ok in H as (st1 & hd & A & H). apply ret_Ok in A as [-> A].
    apply bindM_Ok in H as (st2 & c & G & _). apply reads_Ok in G as [-> G]. wfs'.
    eapply (alt 1); [reflexivity|]. eapply (rule "derived_predicates"); [reflexivity|]. unfold section_sx.
    apply (seq_of _ [["("]; [":derived"]; ww h; ww y; [")"]]); [|words]. pieces; [eapply skeleton_rule; eauto|].
    eapply gd_rule; eauto using domain_vars_ok.
Qed.
Lemma structures_rule l st st' xs : mapM structure_def l st = (st', Ok xs) -> wfl l -> D (Star (N "structure_def")) (wl l).
Proof.
  intros H W. apply star_of. apply mapM_runs in H. apply wfl_Forall in W. induction H; constructor; inversion W; subst; auto. eapply structure_rule; eauto.
Qed.

Lemma opt_rule k n o : (forall l, o = Some l -> D (N n) (ww (section_sx k l))) -> D (Opt (N n)) (wl (opt_section k o)).
Proof.
  intros H. destruct o as [l|]; [|constructor]. apply D_Opt_some. specialize (H l eq_refl). cbn [opt_section]. rewrite wl_cons, wl_nil, app_nil_r. exact H.
Qed.
Lemma opt_wf k o l : wfl (opt_section k o) -> o = Some l -> wfl l.
Proof. intros W ->. cbn [opt_section] in W. now wfs'. Qed.
(** ** domains *)
Lemma domain_rule_rule l st st' d : parse_domain_sexp l st = (st', Ok d) -> wfl l -> D (N "domain") (wl l).
Proof.
  intros H W. unfold parse_domain_sexp in H. 
  destruct l as [|[|[|x1 [|[|[|x2 [|x3 [|]]]] secs]]] [|]]; try (apply ret_Ok in H as [_ H]; discriminate);
    try (destruct x1 as [[]|]; apply ret_Ok in H as [_ H]; discriminate);
    try (destruct x1 as [[]|]; try (apply ret_Ok in H as [_ H]; discriminate); destruct x2 as [[]|]; apply ret_Ok in H as [_ H]; discriminate);
    try (destruct x1 as [[]|]; try (apply ret_Ok in H as [_ H]; discriminate); destruct x2 as [[]|]; try (apply ret_Ok in H as [_ H]; discriminate); destruct x3 as [[]|]; apply ret_Ok in H as [_ H]; discriminate).
  destruct x1 as [[]|]; try (apply ret_Ok in H as [_ H]; discriminate). destruct x2 as [[]|]; try (apply ret_Ok in H as [_ H]; discriminate).
  destruct x3 as [[]|]; try (apply ret_Ok in H as [_ H]; discriminate).
  destruct (String.eqb_spec s "define") as [->|]; [|apply ret_Ok in H as [_ H]; discriminate].
  destruct (String.eqb_spec s0 "domain") as [->|]; [|apply ret_Ok in H as [_ H]; discriminate]. cbn [andb] in H.
  apply domain_rule_inv in H as (o1 & l1 & st1 & rs & o2 & l2 & st2 & ty & o3 & l3 & st3 & cs & o4 & l4 & st4 & ps & o5 & l5 & fs & st6 & xs & S1 & H1 & S2 & H2 & S3 & H3 & S4 & H4 & S5 & H5 & H6 & _ & _).
  apply section_inv in S1, S2, S3, S4, S5. subst. wfs'.
  match goal with H : matches Name s1 |- _ => rename H into Ms end.
  match goal with H : wfl (opt_section ":requirements" _) |- _ => rename H into W1 end. match goal with H : wfl (opt_section ":types" _) |- _ => rename H into W2 end.
  match goal with H : wfl (opt_section ":constants" _) |- _ => rename H into W3 end. match goal with H : wfl (opt_section ":predicates" _) |- _ => rename H into W4 end.
  match goal with H : wfl (opt_section ":functions" _) |- _ => rename H into W5 end. match goal with H : wfl l5 |- _ => rename H into W6 end.
  eapply (rule "domain"); [reflexivity|].
  apply (seq_of _ [["("]; ["define"]; ["("; "domain"; s1; ")"]; wl (opt_section ":requirements" o1); wl (opt_section ":types" o2); wl (opt_section ":constants" o3);
     wl (opt_section ":predicates" o4); wl (opt_section ":functions" o5); wl l5; [")"]]).
  - pieces.
    + eapply (rule "domain_def"); [reflexivity|]. apply (seq_of _ [["("]; ["domain"]; [s1]; [")"]]); [|reflexivity]. pieces.
    + apply opt_rule. intros l ->. pose proof (opt_wf _ _ _ W1 eq_refl) as W'. apply optM_Ok in H1 as (a & H1 & _). unfold requirements in H1.
      apply bindM_Ok in H1 as (? & k & K & _). apply ret_Ok in K as [_ K]. eapply require_keys_rule; eauto.
    + apply opt_rule. intros l ->. pose proof (opt_wf _ _ _ W2 eq_refl) as W'. apply optM_Ok in H2 as (a & H2 & _). unfold types_section in H2.
      apply bindM_Ok in H2 as (? & k & K & _). apply ret_Ok in K as [_ K]. eapply types_rule; eauto.
    + apply opt_rule. intros l ->. pose proof (opt_wf _ _ _ W3 eq_refl) as W'. apply optM_Ok in H3 as (a & H3 & _). unfold constants_section in H3.
      apply bindM_Ok in H3 as (? & k & K & _). apply ret_Ok in K as [_ K]. eapply constants_rule; eauto.
    + apply opt_rule. intros l ->. pose proof (opt_wf _ _ _ W4 eq_refl) as W'. apply optM_Ok in H4 as (a & H4 & _). unfold predicates_section in H4.
      apply bindM_Ok in H4 as (? & k & K & _). apply ret_Ok in K as [_ K]. eapply predicates_rule; eauto.
    + apply opt_rule. intros l ->. pose proof (opt_wf _ _ _ W5 eq_refl) as W'. apply optM_Ok in H5 as (a & H5 & _). apply ret_Ok in H5 as [_ K]. eapply functions_rule; eauto.
    + eapply structures_rule; eauto.
  - words. rewrite !wl_app, <- ?app_assoc. reflexivity.
Qed.

(** ** problems *)
Lemma basic_rule s f : basic_function_term s = Ok f -> wf s -> D (N "basic_function_term") (ww s).
Proof.
  intros H W. eapply (rule "basic_function_term"); [reflexivity|]. destruct s as [[]|[|[[]|] args]]; try discriminate; wfs.
  - eapply (alt 0); [reflexivity|]. lits.
  - cbn [basic_function_term] in H. destruct (mapO Parser.word args) as [ps|] eqn:E; [|discriminate]. destruct (words_wf _ _ E W) as [Ew F].
    eapply (alt 1); [reflexivity|]. apply (seq_of _ [["("]; [s]; ps; [")"]]); [|words; now rewrite Ew]. pieces. now apply names_star.
Qed.
Lemma atomic_name_rule objs s f : atomic_formula_name objs s = Ok f -> wf s -> D (N "atomic_formula_name") (ww s).
Proof.
  intros H W. eapply (rule "atomic_formula_name"); [reflexivity|]. destruct s as [[]|[|[[]|] args]]; try discriminate; wfs.
  cbn [atomic_formula_name] in H. destruct (mapO Parser.word args) as [ps|] eqn:E; [|discriminate]. destruct (words_wf _ _ E W) as [Ew F].
  apply (seq_of _ [["("]; [s]; ps; [")"]]); [|words; now rewrite Ew]. pieces; [eapply (rule "predicate"); [reflexivity|lits]|now apply names_star].
Qed.
Lemma init_el_rule objs s f : init_el objs s = Ok f -> wf s -> D (N "init_el") (ww s).
Proof.
  intros H W. eapply (rule "init_el"); [reflexivity|]. destruct s as [[]|[|[[]|] args]]; try discriminate.
  - eapply (alt 0); [reflexivity|]. eapply (rule "literal_name"); [reflexivity|]. cbn [init_el] in H. destruct (String.eqb_spec s "not") as [->|].
    + destruct args as [|x [|]]; try discriminate. apply bind_Ok in H as (g & M & _). wfs. eapply (alt 1); [reflexivity|].
      apply (seq_of _ [["("]; ["not"]; ww x; [")"]]); [|words]. pieces. eapply atomic_name_rule; eauto.
    + eapply (alt 0); [reflexivity|]. eapply atomic_name_rule; eauto.
  - cbn [init_el] in H. destruct args as [|x [|[[]|] [|]]]; try discriminate. destruct (String.eqb_spec s "=") as [->|]; [|discriminate].
    apply bind_Ok in H as (g & M & _). wfs. eapply (alt 1); [reflexivity|].
    apply (seq_of _ [["("]; ["="]; ww x; [s0]; [")"]]); [|words]. pieces; [eapply basic_rule; eauto|eapply (rule "num_literal"); [reflexivity|lits]].
Qed.
Lemma metric_f_exp_rule s : forall f, metric_f_exp s = Ok f -> wf s -> D (N "metric_f_exp") (ww s).
Proof.
  induction s as [t|l IH] using sexp_ind'; intros f H W.
  - eapply (rule "metric_f_exp"); [reflexivity|]. destruct t; try discriminate.
    + eapply (alt 3); [reflexivity|]. eapply (basic_rule _ f); auto.
    + wfs. eapply (alt 4); [reflexivity|]. lits.
  - eapply (rule "metric_f_exp"); [reflexivity|]. destruct l as [|[[]|] args]; try discriminate.
    + eapply (alt 3); [reflexivity|]. apply (basic_rule _ f); auto.
    + cbn [metric_f_exp] in H. destruct (arith_op s (length args)) as [k|] eqn:A; [|discriminate]. apply bind_Ok in H as (ops & M & _).
      inversion IH as [|? ? _ IH']; subst. wfs. pose proof (arith_rule (N "metric_f_exp") s args k A (mapR_rule metric_f_exp (N "metric_f_exp") args ops M IH' W)) as X.
      eapply alt_weaken; [|exact X]. cbn. tauto.
Qed.
Lemma metric_rule l m : metric_spec l = Ok m -> wfl l -> D (N "metric_spec") (ww (section_sx ":metric" l)).
Proof.
  intros H W. unfold metric_spec in H. destruct l as [|[[]|] [|e [|]]]; try discriminate. destruct (memb String.eqb s ["maximize"; "minimize"]) eqn:Mo; [|discriminate].
  apply bind_Ok in H as (f & M & _). wfs. eapply (rule "metric_spec"); [reflexivity|]. unfold section_sx.
  apply (seq_of _ [["("]; [":metric"]; [s]; ww e; [")"]]); [|words]. pieces; [|eapply metric_f_exp_rule; eauto].
  eapply (rule "optimization"); [reflexivity|]. apply memb_string_In in Mo as [<-|[<-|[]]]; [eapply (alt 0)|eapply (alt 1)]; try reflexivity; lits.
Qed.
Lemma problem_rule_rule objs0 l p : parse_problem_sexp objs0 l = Ok p -> wfl l -> D (N "problem") (wl l).
Proof.
  intros H W. unfold parse_problem_sexp in H.
  repeat match type of H with
    | match ?x with _ => _ end = Ok _ => is_var x; destruct x; try discriminate H
    end.
  match type of H with (if _ && _ && is_kw _ ?k then problem_rule _ ?n ?dn ?secs else _) = _ => rename k into k3, n into s1, dn into s2 end.
  destruct (String.eqb_spec s "define") as [->|]; [|discriminate]. destruct (String.eqb_spec s0 "problem") as [->|]; [|discriminate].
  cbn [andb] in H. destruct (is_kw ":domain" k3) eqn:K; [|discriminate]. destruct k3 as [[]|]; try discriminate. apply String.eqb_eq in K. subst.
  apply problem_rule_inv in H as (o1 & o2 & inits & g & o5 & rs & os & init & goal & m & -> & H1 & H2 & H3 & H4 & H5 & _).
  unfold problem_sections in W. wfs'.
  match goal with H : matches Name s1 |- _ => rename H into Ms1 end. match goal with H : matches Name s2 |- _ => rename H into Ms2 end.
  match goal with H : wfl (opt_section ":requirements" _) |- _ => rename H into W1 end. match goal with H : wfl (opt_section ":objects" _) |- _ => rename H into W2 end.
  match goal with H : wfl inits |- _ => rename H into W3 end. match goal with H : wf g |- _ => rename H into W4 end.
  match goal with H : wfl (opt_section ":metric" _) |- _ => rename H into W5 end.
  eapply (rule "problem"); [reflexivity|].
  apply (seq_of _ [["("]; ["define"]; ["("; "problem"; s1; ")"]; ["("; ":domain"; s2; ")"]; wl (opt_section ":requirements" o1); wl (opt_section ":objects" o2);
     ww (section_sx ":init" inits); ww (section_sx ":goal" [g]); wl (opt_section ":metric" o5); [")"]]).
  - pieces.
    + eapply (rule "problem_def"); [reflexivity|]. apply (seq_of _ [["("]; ["problem"]; [s1]; [")"]]); [|reflexivity]. pieces.
    + eapply (rule "problem_domain"); [reflexivity|]. apply (seq_of _ [["("]; [":domain"]; [s2]; [")"]]); [|reflexivity]. pieces.
    + apply opt_rule. intros l ->. pose proof (opt_wf _ _ _ W1 eq_refl) as W'. cbn in H1. apply bind_Ok in H1 as (a & H1 & _). eapply require_keys_rule; eauto.
    + apply opt_rule. intros l ->. pose proof (opt_wf _ _ _ W2 eq_refl) as W'. cbn in H2. apply bind_Ok in H2 as (a & H2 & _). unfold objects_section in H2.
      apply bind_Ok in H2 as (a' & H2 & _). eapply objects_rule; eauto.
    + eapply (rule "init"); [reflexivity|]. unfold section_sx. apply (seq_of _ [["("]; [":init"]; wl inits; [")"]]); [|words]. pieces. apply star_of.
      eapply mapR_rule; eauto. apply Forall_forall. intros x _ y E Wx. eapply init_el_rule; eauto.
    + eapply (rule "goal"); [reflexivity|]. unfold section_sx. apply (seq_of _ [["("]; [":goal"]; ww g; [")"]]); [|words]. pieces. eapply gd_rule; eauto using problem_vars_ok.
    + apply opt_rule. intros l ->. pose proof (opt_wf _ _ _ W5 eq_refl) as W'. cbn in H5. apply bind_Ok in H5 as (a & H5 & _). eapply metric_rule; eauto.
  - words. unfold problem_sections. rewrite !wl_app, !wl_cons, <- ?app_assoc. reflexivity.
Qed.

(** ** plans *)
Lemma ground_action_rule s a : ground_action s = Ok a -> wf s -> D (N "ground_action") (ww s).
Proof.
  intros H W. eapply (rule "ground_action"); [reflexivity|]. destruct s as [[]|[|[[]|] args]]; try discriminate; wfs.
  cbn [ground_action] in H. destruct (mapO Parser.word args) as [ps|] eqn:E; [|discriminate]. destruct (words_wf _ _ E W) as [Ew F].
  apply (seq_of _ [["("]; [s]; ps; [")"]]); [|words; now rewrite Ew]. pieces; [eapply (rule "predicate"); [reflexivity|lits]|now apply names_star].
Qed.
Lemma plan_rule l p : mapR ground_action l = Ok p -> wfl l -> D (N "plan") (wl l).
Proof.
  intros H W. eapply (rule "plan"); [reflexivity|]. apply star_of. eapply mapR_rule; eauto. apply Forall_forall. intros x _ y E Wx. eapply ground_action_rule; eauto.
Qed.

(** ** texts *)
Lemma text_rule n s l : read_text s = Some l -> (wfl l -> D (N n) (wl l)) -> in_grammar n s.
Proof.
  intros H K. apply read_inv in H. unfold read_text in H. assert (W : wfl l) by (unfold wfl; rewrite <- H; apply lex_wf).
  specialize (K W). unfold wl in K. rewrite <- H in K. exists (map spell (lex s)). split; auto. apply lex_spelled.
  intros B. apply D_words in K. rewrite Forall_map, Forall_forall in K. apply word_nonempty. apply (K TBad B).
Qed.
