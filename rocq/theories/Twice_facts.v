(** Facts for C52: the text of an object read back from its own text. *)
From Coq Require Import String List Bool Arith ZArith Lia Permutation.
From Verif Require Import Py Names Reqs Logic Built Validation Core Lexer Show Parser.
From Verif Require Import Spec Spec_Core Spec_Parse Spec_Print Spec_Text Spec_Domain Spec_Problem Spec_Same.
From Verif Require Import Py_facts Names_facts Logic_facts Built_facts NF_facts Order_facts CoreEq_facts Types_facts ShowSame_facts
  Domain_facts Problem_facts Derived_facts Action_facts FormText_facts ProblemText_facts DomainText_facts DomainRead_facts Same_facts
  Loose_facts Format_facts FormatDomain_facts.
Import ListNotations.
Open Scope string_scope.
Open Scope list_scope.

(** ** variables of parsed declarations *)
Lemma legal_some vs : Forall legal_var vs -> Forall some_var (map TVar vs).
Proof. induction 1 as [|v vs (_ & _ & N) F IH]; cbn; constructor; auto. now exists v. Qed.
Lemma replace_some m ts ts' : mapR (UpdateTags.replace_term m) ts = Ok ts' -> Forall some_var ts -> Forall some_var ts'.
Proof.
  intros H F. apply mapR_Ok in H. induction H as [|t u ts us E H IH]; auto. inversion F as [|? ? (v & -> & N) F']; subst.
  constructor; auto. cbn in E. destruct (dict_get String.eqb (v_name v) m) as [g|].
  - apply bind_Ok in E as (w & W & E). inversion E; subst. exists w. split; auto.
    unfold with_type_tags in W. apply mk_var_Ok in W as (-> & _). cbn. apply dedup_string_NoDup.
  - inversion E; subst. now exists v.
Qed.
Lemma parsed_vars_some l q : parsed_parts l q ->
  (forall p, In p (d_predicates q) -> Forall some_var (snd p))
  /\ (forall f, In f (d_functions q) -> Forall some_var (snd (fst f)))
  /\ (forall x, In x (d_derived q) -> Forall some_var (dp_terms x))
  /\ (forall a, In a (d_actions q) -> Forall some_var (a_params a)).
Proof.
  intros [P1 P2 P3 P4 P5 [P6 P7] P8 P9]. split; [|split; [|split]].
  - intros p I. rewrite Forall_forall in P5. destruct (P5 p I) as (vs & E & _ & V & _). rewrite E. now apply legal_some.
  - intros f I. rewrite Forall_forall in P7. destruct (P7 f I) as ((vs & E & _ & (V & _) & _) & _). rewrite E. now apply legal_some.
  - intros x I. destruct (P9 x I) as (body & s1 & s2 & _ & H & W). destruct body as [|h [|c [|]]]; try discriminate.
    unfold derived_def, bindM, ret, reads in H. destruct (atomic_formula_skeleton h) as [head|] eqn:A; [|discriminate].
    destruct (gd _ c) as [cond|]; [|discriminate]. apply (f_equal snd) in H. cbn [snd] in H. unfold derived_callback in H.
    destruct (dict_get String.eqb (fst head) (s_predicates s1)) as [def|] eqn:Dg; [|discriminate].
    apply bind_Ok in H as ([] & L & H). apply bind_Ok in H as (m & M & H). apply bind_Ok in H as (p & U & H).
    apply bind_Ok in H as (cond' & C & H). simpl in U. apply bind_Ok in U as (ts' & T & U). apply mk_pred_Ok in U. subst p.
    inversion H; subst x. cbn [dp_terms]. eapply replace_some; [exact T|].
    destruct (skeleton_ok _ _ A) as (vs & Ev & Ln & V1 & _). rewrite Ev. now apply legal_some.
  - intros a I. destruct (P8 a I) as (body & s1 & s2 & _ & H & W).
    apply action_def_st in H as (n & ps & bd & vs & b & _ & P & Bd & K).
    apply action_parameters_ok in P as (qs & Es & -> & Kq & Nq & (V1 & V2 & V3)).
    unfold mk_action in K. apply bind_Ok in K as (n' & Nm & K). inversion K; subst a. cbn [a_params].
    rewrite <- map_map. now apply legal_some.
Qed.

(** ** members alike have the same text *)
Lemma alike_texts {A} (R : A -> A -> Prop) (f : A -> string) l m : alike R l m ->
  (forall x y, In x l -> In y m -> R x y -> f x = f y) -> Permutation (map f l) (map f m).
Proof.
  intros (m' & F & P) H. transitivity (map f m'); [|now apply Permutation_map].
  assert (H' : forall x y, In x l -> In y m' -> R x y -> f x = f y).
  { intros x y X Y. apply H; auto. eapply Permutation_in; eauto. }
  clear - F H'. match goal with |- Permutation ?a ?b => replace a with b; [reflexivity|] end.
  induction F as [|x y l m X F IH]; auto. cbn. f_equal; [symmetry; apply H'; cbn; auto|]. apply IH. intros. apply H'; cbn; auto.
Qed.
Lemma derived_text x y : same_derived x y -> Forall some_var (dp_terms x) -> Forall some_var (dp_terms y) ->
  built (dp_cond y) -> show_derived x = show_derived y.
Proof.
  intros D P Q B. pose proof (same_derived_eqb _ _ D) as E. destruct D as (_ & _ & C).
  unfold derived_eqb in E. apply andb_true_iff in E as [E1 E2].
  unfold show_derived. rewrite (sim_show _ _ C (built_nff _ B)).
  rewrite (predicates_same [(dp_name x, dp_terms x)] [(dp_name y, dp_terms y)]); auto.
  - constructor; [reflexivity|constructor].
  - constructor; [reflexivity|constructor].
  - unfold set_eqb, subset, memb. cbn in *. unfold atom_eqb. cbn [fst snd]. rewrite E1. cbn.
    assert (E3 : atom_eqb (dp_name y, dp_terms y) (dp_name x, dp_terms x) = true); [|unfold atom_eqb in E3; cbn in E3; now rewrite E3].
    rewrite (eqv_sym _ atom_eqb_equiv). exact E1.
  - intros p [<-|[]]. exact P.
  - intros p [<-|[]]. exact Q.
Qed.
Lemma params_equal ts us : Forall2 same_term ts us -> Forall some_var ts -> Forall Spec_Same.typed_var us -> ts = us.
Proof.
  induction 1 as [|t u ts us (E & _) F IH]; intros S1 S2; auto.
  inversion S1 as [|? ? (v & -> & N) S1']; inversion S2 as [|? ? (w & -> & O) S2']; subst. f_equal; auto. f_equal.
  apply one_type_var; auto. now apply same_var_eqb.
Qed.
Lemma action_text a b : same_action a b -> Forall some_var (a_params a) -> Forall Spec_Same.typed_var (a_params b) ->
  (forall f, In f (action_forms b) -> built f) -> show_action a = show_action b.
Proof.
  intros (N & T & p & e & p' & e' & E1 & E2 & E3 & E4 & S1 & S2) P Q B.
  unfold show_action. rewrite N, (params_equal _ _ T P Q), E1, E2, E3, E4.
  unfold action_forms in B. rewrite E3, E4 in B. cbn in B.
  rewrite (sim_show _ _ S1), (sim_show _ _ S2); auto; apply built_nff, B; auto.
Qed.

Theorem domain_text d : domain_built d -> expressible_domain d -> NoDupE atom_eqb (map fst (d_functions d)) ->
  exists s q, show_domain d = Ok s /\ parse_domain_fresh s = Ok q /\ domain_eqb q d = true /\ show_domain q = Ok s.
Proof.
  intros B X F. destruct (domain_read_alike d B X F) as (s & q & SH & PA & E & C & DA & AA).
  exists s, q. split; auto. split; auto. split; auto. rewrite <- SH.
  destruct (parsed_domain_parts _ _ PA) as (n0 & l0 & _ & PP). destruct (parsed_vars_some _ q PP) as (V1 & V2 & V3 & V4).
  destruct PP as [BQ _ _ _ _ [FQ _] _ _]. destruct X as [ER ET EC EP EF ED EA].
  assert (W1 : forall p, In p (d_predicates d) -> Forall some_var (snd p)).
  { intros p I. rewrite Forall_forall in EP. destruct (EP p I) as (vs & H & _ & V & _). rewrite H. now apply legal_some. }
  assert (W2 : forall f, In f (d_functions d) -> Forall some_var (snd (fst f))).
  { intros f I. rewrite Forall_forall in EF. destruct (EF f I) as (vs & H & _ & (V & _) & _). rewrite H. now apply legal_some. }
  destruct (domain_sets q BQ) as (RA & CA & PRA & _), (domain_sets d B) as (RB & CB & PRB & _).
  destruct (built_types q BQ) as [TA _], (built_types d B) as [TB _].
  unfold domain_eqb in E. apply andb_true_iff in E as [E E8]. apply andb_true_iff in E as [E E7].
  apply andb_true_iff in E as [E E6]. apply andb_true_iff in E as [E E5]. apply andb_true_iff in E as [E E4].
  apply andb_true_iff in E as [E E3]. apply andb_true_iff in E as [E1 E2]. apply String.eqb_eq in E1.
  unfold show_domain, domain_body.
  rewrite (types_same _ _ (types_perm _ _ TA TB E3)). destruct (print_types_with_parents (d_types d)) as [ts|]; auto.
  cbn [bind]. rewrite E1.
  rewrite (sorted_collection _ _ _ _ _ (reqs_same _ _ RA RB E2)).
  rewrite (constants_same _ _ _ (consts_perm _ _ CA CB C)).
  rewrite (functions_same _ _ FQ F E6 V2 W2).
  assert (X : match d_predicates q with [] => "" | ps => "(:predicates " +++ print_predicates ps +++ ")" +++ nl end
            = match d_predicates d with [] => "" | ps => "(:predicates " +++ print_predicates ps +++ ")" +++ nl end).
  { pose proof (predicates_same _ _ PRA PRB E5 V1 W1) as P. pose proof (set_eqb_nil _ _ _ E5) as Z.
    destruct (d_predicates q), (d_predicates d); auto.
    - discriminate (proj1 Z eq_refl).
    - discriminate (proj2 Z eq_refl).
    - now rewrite P. }
  rewrite X.
  rewrite (sorted_collection _ (map show_derived (d_derived q)) (map show_derived (d_derived d))).
  - rewrite (sorted_collection _ (map (fun a => show_action a +++ nl) (d_actions q)) (map (fun a => show_action a +++ nl) (d_actions d))); auto.
    apply (alike_texts _ _ _ _ AA). intros x y HX HY S'. f_equal. rewrite Forall_forall in EA.
    destruct (EA y HY) as (vs & pre & eff & Ey & _ & (_ & O & _) & _ & B1 & _ & B2 & _).
    apply action_text; auto.
    + rewrite Ey. cbn [a_params]. apply Forall_map. eapply Forall_impl; [|exact O]. intros v Hv. now exists v.
    + rewrite Ey. cbn. intros f [<-|[<-|[]]]; auto.
  - apply (alike_texts _ _ _ _ DA). intros x y HX HY S'. rewrite Forall_forall in ED.
    destruct (ED y HY) as (vs & us & Ey & _ & L & _ & _ & _ & _ & _ & By & _).
    apply derived_text; auto. rewrite Ey. now apply legal_some.
Qed.

(** ** problems *)
Lemma parsed_problem_reach s p : parse_problem s = Ok p -> problem_reach p.
Proof.
  intros P. apply parse_problem_inv in P as (n & dn & l & T & R).
  apply problem_rule_inv in R as (o1 & o2 & inits & g & o5 & rs & os & init & goal & m & _ & Rq & Os & I & G & Me & M).
  eapply PR_new; [|exact M]. discriminate.
Qed.
Theorem problem_text p : problem_reach p -> expressible_problem p ->
  exists q, parse_problem (show_problem p) = Ok q /\ show_problem q = show_problem p.
Proof.
  intros R X. destruct (parse_shown_problem p R X) as (q & Q & RB). exists q. split; auto.
  assert (RQ : problem_reach q) by (eapply parsed_problem_reach; eauto).
  destruct (problem_sets p R) as (RP & OP & IP), (problem_sets q RQ) as (RQ' & OQ & IQ).
  destruct RB. unfold show_problem, problem_body.
  rewrite (sorted_collection _ _ _ _ _ (reqs_same _ _ RQ' RP rb_reqs)).
  rewrite (constants_same _ _ _ rb_objects), rb_goal_text.
  rewrite (sorted_collection _ _ _ _ _ (rb_init_text IP)), rb_name.
  assert (D : get_domain_name q = get_domain_name p) by (unfold get_domain_name at 1; rewrite rb_domain; exact rb_domain_name).
  rewrite D. destruct (p_metric q) as [m|], (p_metric p) as [m'|]; cbn in rb_metric_text; try discriminate; auto.
  injection rb_metric_text as E. now rewrite E.
Qed.
