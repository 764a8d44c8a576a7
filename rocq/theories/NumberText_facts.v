(** The numbers of whole texts. *)
From Coq Require Import String Ascii List Bool Arith Lia ZArith QArith.
From Verif Require Import Py Names Reqs Logic Validation Core Lexer TypedList UpdateTags Parser.
From Verif Require Import Spec Spec_Parse Spec_Numbers.
From Verif Require Import Py_facts Logic_facts Ops_facts Names_facts CoreEq_facts Parse_facts GD_facts
  Domain_facts Action_facts Problem_facts Number_facts.
Import ListNotations.
Open Scope string_scope.
Open Scope list_scope.

Lemma num_eqb_value v w r : num_eqb v w = true -> num_value v = Some r ->
  exists r', num_value w = Some r' /\ (r' == r)%Q.
Proof.
  destruct v, w; cbn; try discriminate; intros E [= <-]; apply Qeq_bool_iff in E;
    eexists; (split; [reflexivity|now symmetry]).
Qed.
Lemma num_spec_same x f : num_spec x f -> (forall s, number_in s x -> num_tok s) -> same_numbers x f.
Proof.
  intros [A B] T. split.
  - intros s N. destruct (A s N) as (v & w & L & W & E).
    destruct (literal_numeral _ _ (T s N) L) as (q & r & Q & V & R). exists q. split; auto.
    destruct (num_eqb_value _ _ _ E V) as (r' & V' & R'). exists w, r'. split; auto. split; auto.
    now rewrite R'.
  - intros v W. destruct (B v W) as (s & N & L).
    destruct (literal_numeral _ _ (T s N) L) as (q & r & Q & V & R). exists s, q, r. auto.
Qed.
Lemma same_numbers_eqb x f g : form_eqb f g = true -> same_numbers x f -> same_numbers x g.
Proof.
  intros E [A B]. split.
  - intros s N. destruct (A s N) as (q & Q & v & r & W & V & R). exists q. split; auto.
    destruct (within_num_eqb _ _ W _ E) as (w & Ww & Ew).
    destruct (num_eqb_value _ _ _ Ew V) as (r' & V' & R'). exists w, r'. split; auto. split; auto.
    now rewrite R'.
  - intros v W. assert (E' : form_eqb g f = true) by now rewrite (eqv_sym _ form_eqb_equiv).
    destruct (within_num_eqb _ _ W _ E') as (w & Ww & Ew).
    destruct (B w Ww) as (s & q & r & N & Q & V & R). rewrite (eqv_sym _ num_eqb_equiv) in Ew.
    destruct (num_eqb_value _ _ _ Ew V) as (r' & V' & R'). exists s, q, r'. repeat split; auto.
    now rewrite R'.
Qed.

(** ** actions *)
Lemma parsed_numbers s n l st st' d :
  domain_text s n l -> parse_domain s st = (st', Ok d) ->
  (forall a, In a (d_actions d) ->
     exists ps x y p e,
       In (section_sx ":action" [name_sx (a_name a); SAtom (TKw ":parameters"); SList ps;
             SAtom (TKw ":precondition"); x; SAtom (TKw ":effect"); y]) l
       /\ a_pre a = Some p /\ a_eff a = Some e /\ same_numbers x p /\ same_numbers y e)
  /\ (forall an ps x y,
       In (section_sx ":action" [name_sx an; SAtom (TKw ":parameters"); SList ps;
             SAtom (TKw ":precondition"); x; SAtom (TKw ":effect"); y]) l ->
       exists a p e, In a (d_actions d) /\ a_name a = an
         /\ a_pre a = Some p /\ a_eff a = Some e /\ same_numbers x p /\ same_numbers y e).
Proof.
  intros T H. destruct (parsed_actions _ _ _ _ _ _ T H) as [A1 A2].
  assert (TOK : forall body x m, In (section_sx ":action" body) l -> In x body -> number_in m x -> num_tok m).
  { intros body x m B X N. eapply read_text_tok; [exact T|left; reflexivity|].
    apply number_in_list. exists (section_sx ":action" body). split; [right; right; exact B|].
    apply number_in_list. exists x. split; [now right|exact N]. }
  assert (F : forall body s1 s2 a, In (section_sx ":action" body) l -> action_def body s1 = (s2, Ok a) ->
    exists ps x y p e, body = [name_sx (a_name a); SAtom (TKw ":parameters"); SList ps;
             SAtom (TKw ":precondition"); x; SAtom (TKw ":effect"); y]
       /\ a_pre a = Some p /\ a_eff a = Some e /\ same_numbers x p /\ same_numbers y e).
  { intros body s1 s2 a B D. specialize (TOK body).
    apply action_def_st in D as (an & ps & bd & vs & b & -> & P & Bd & K).
    apply action_body_inv in Bd as (x & y & -> & Bp & Be).
    unfold mk_action in K. apply bind_Ok in K as (n' & Nm & K). inversion K; subst a. clear K.
    cbn [a_name a_params a_pre a_eff] in *. apply parse_name_Ok' in Nm as [-> _].
    exists ps, x, y, (fst b), (snd b). split; [reflexivity|]. split; [reflexivity|]. split; [reflexivity|].
    split.
    - apply num_spec_same; [eapply emptyor_pregd_ns; [apply domain_vars|exact Bp]|].
      intros m N. eapply TOK; [exact B| |exact N]. simpl. auto 12.
    - apply num_spec_same; [eapply emptyor_effect_ns; [apply domain_vars|exact Be]|].
      intros m N. eapply TOK; [exact B| |exact N]. simpl. auto 12. }
  split.
  - intros a A. destruct (A1 a A) as (body & s1 & s2 & B & D).
    destruct (F _ _ _ _ B D) as (ps & x & y & p & e & -> & R). exists ps, x, y, p, e. auto.
  - intros an ps x y B. destruct (A2 _ B) as (s1 & s2 & a & D & M).
    destruct (F _ _ _ _ B D) as (ps' & x' & y' & p & e & E & Ep & Ee & Sp & Se).
    injection E as -> -> <- <-. apply memb_In in M as (b & Ib & Eb). unfold action_eqb in Eb.
    rewrite !andb_true_iff in Eb. destruct Eb as (((E1 & _) & E3) & E4). apply String.eqb_eq in E1.
    rewrite Ep in E3. rewrite Ee in E4.
    destruct (a_pre b) as [p'|] eqn:Pb; [|discriminate]. destruct (a_eff b) as [e'|] eqn:Eb; [|discriminate].
    exists b, p', e'. repeat split; auto; try (eapply same_numbers_eqb; eauto).
Qed.

(** ** problems *)
Lemma words_no_number args ns : mapO word args = Some ns -> Forall no_number args.
Proof.
  intros H. apply mapO_word_inv in H. subst. apply Forall_forall. intros x Hx.
  apply in_map_iff in Hx as (y & <- & _). apply no_number_atom; discriminate.
Qed.
Lemma numfun_no_num n ts f : mk_numfun n ts = Ok f -> forall v, ~ within (FNumVal v) f.
Proof.
  intros H. unfold mk_numfun in H. apply bind_Ok in H as (n' & _ & H). inversion H; subst.
  intros v W. inversion W.
Qed.
Lemma basic_function_term_ns x f : basic_function_term x = Ok f ->
  no_number x /\ forall v, ~ within (FNumVal v) f.
Proof.
  destruct x as [[]|[|[[]|] l]]; cbn; try discriminate; intros H.
  - split; [apply no_number_atom; discriminate|eapply numfun_no_num; eauto].
  - apply bind_Ok in H as (ns & T & H). apply of_opt_Ok' in T. apply bind_Ok in H as (ts & _ & H).
    split; [|eapply numfun_no_num; eauto]. apply no_number_list. atoms. eapply words_no_number; eauto.
Qed.
Lemma atomic_formula_name_ns objs x f : atomic_formula_name objs x = Ok f -> num_spec x f.
Proof.
  unfold atomic_formula_name. destruct x as [|[|[[]|] l]]; try discriminate. intros H.
  apply bind_Ok in H as (ns & T & H). apply of_opt_Ok' in T. apply bind_Ok in H as (ts & _ & H).
  apply ns_leaf.
  - apply no_number_list. atoms. eapply words_no_number; eauto.
  - apply mk_pred_iff in H as [-> _]. intros v W. inversion W.
Qed.
Lemma init_el_ns objs x f : init_el objs x = Ok f -> num_spec x f.
Proof.
  unfold init_el. destruct x as [|[|[[| | |w| |o| |]|] args]]; try discriminate.
  - destruct (String.eqb w "not"); [|apply atomic_formula_name_ns].
    destruct args as [|y [|]]; try discriminate. intros H. apply bind_Ok in H as (g & G & H).
    inversion H; subst. apply (ns_one [SAtom (TWord w)] y [] g);
      [atoms|atoms|eapply atomic_formula_name_ns; eauto|].
    intros v. split; [inversion 1; auto|now constructor].
  - destruct args as [|f0 args]; try discriminate. destruct args as [|k args]; try discriminate.
    destruct k as [k|]; try discriminate. destruct k as [| | | |n| | |]; try discriminate.
    destruct args; try discriminate. destruct (String.eqb o "="); [|discriminate]. intros H.
    apply bind_Ok in H as (g & G & H). apply bind_Ok in H as (v & L & H). inversion H; subst.
    apply basic_function_term_ns in G as [G1 G2].
    apply (ns_op [SAtom (TOp o)]); [atoms|]. constructor; [now apply ns_leaf|].
    constructor; [|constructor]. apply (f_exp_ns problem_ctx). cbn [f_exp]. now rewrite L.
Qed.

(** numbers of a metric: the text itself *)
Lemma metric_raw x : forall f, metric_f_exp x = Ok f ->
  forall v, within (FNumVal v) f -> exists s, v = NStr s /\ number_in s x.
Proof.
  induction x as [t|l IH] using sexp_ind'; intros f H v W.
  - destruct t; try (match type of H with metric_f_exp ?x = _ => change (basic_function_term x = Ok f) in H end;
      apply basic_function_term_ns in H as [_ H]; destruct (H v W)).
    cbn in H; injection H as <-. inversion W; subst. exists s. split; auto. constructor.
  - destruct l as [|[[]|] args]; try (match type of H with metric_f_exp ?x = _ => change (basic_function_term x = Ok f) in H end;
      apply basic_function_term_ns in H as [_ H]; destruct (H v W)).
    cbn [metric_f_exp] in H. destruct (arith_op s (length args)); [|discriminate].
    apply bind_Ok in H as (ops & M & H). inversion H; subst. inversion IH as [|? ? _ IHa]; subst.
    apply within_mk_op_inv in W as (f & I & W). apply mapR_Ok in M. clear IH H.
    assert (X : exists s0 y, In y args /\ v = NStr s0 /\ number_in s0 y).
    { induction M as [|y g args ops G M IHM]; [destruct I|]. inversion IHa; subst. destruct I as [->|I].
      - destruct (H1 _ G _ W) as (s0 & V & N). exists s0, y. simpl. auto.
      - destruct IHM as (s0 & z & Z & R); auto. exists s0, z. simpl. tauto. }
    destruct X as (s0 & y & Y & V & N). exists s0. split; auto. apply number_in_list.
    exists y. split; auto. now right.
Qed.
Lemma metric_spec_inv l m : metric_spec l = Ok m ->
  exists o e, l = [name_sx o; e] /\ (o = "maximize" \/ o = "minimize") /\ m = mkMetric (me_expr m) o
              /\ metric_f_exp e = Ok (me_expr m).
Proof.
  unfold metric_spec. destruct l as [|k l]; try discriminate. destruct k as [k|]; try discriminate.
  destruct k as [| | |o| | | |]; try discriminate. destruct l as [|e l]; try discriminate.
  destruct l; try discriminate. destruct (memb String.eqb o ["maximize"; "minimize"]) eqn:M; [|discriminate].
  intros H. apply bind_Ok in H as (f & F & H). unfold mk_metric in H. rewrite M in H. inversion H; subst.
  exists o, e. split; auto. split; [|split; auto].
  apply memb_In in M as (y & Y & E). apply String.eqb_eq in E. subst. destruct Y as [<-|[<-|[]]]; auto.
Qed.

Lemma parsed_problem_numbers s n dn l p :
  problem_text s n dn l -> parse_problem s = Ok p ->
  exists rest inits g tail,
    l = rest ++ section_sx ":init" inits :: section_sx ":goal" [g] :: tail
    /\ (forall x, In x inits -> exists f, In f (p_init p) /\ same_numbers x f)
    /\ (forall f, In f (p_init p) -> exists x, In x inits /\ same_numbers x f)
    /\ same_numbers g (p_goal p).
Proof.
  intros T P. pose proof P as P'. apply parse_problem_inv in P' as (n' & dn' & l' & T' & R).
  destruct (problem_text_unique _ _ _ _ _ _ _ T T') as (<- & <- & <-).
  apply problem_rule_inv in R as (o1 & o2 & inits & g & o5 & rs & os & init & goal & m & -> & _ & _ & I & G & _ & M).
  apply mk_problem_fields in M as (Mi & Mg & _).
  exists (opt_section ":requirements" o1 ++ opt_section ":objects" o2), inits, g, (opt_section ":metric" o5).
  split; [unfold problem_sections; now rewrite app_assoc|].
  assert (TOK : forall k b x m0, In (section_sx k b) (problem_sections o1 o2 inits g o5) -> In x b ->
    number_in m0 x -> num_tok m0).
  { intros k b x m0 B X N. eapply read_text_tok; [exact T|left; reflexivity|].
    apply number_in_list. exists (section_sx k b). split; [do 3 right; exact B|].
    apply number_in_list. exists x. split; [now right|exact N]. }
  assert (II : In (section_sx ":init" inits) (problem_sections o1 o2 inits g o5)).
  { unfold problem_sections. rewrite app_assoc. apply in_or_app. right. now left. }
  assert (IG : In (section_sx ":goal" [g]) (problem_sections o1 o2 inits g o5)).
  { unfold problem_sections. rewrite app_assoc. apply in_or_app. right. right. now left. }
  assert (F2 : Forall2 (fun x f => init_el match os with Some d => d | None => [] end x = Ok f) inits init)
    by now apply mapR_Ok.
  assert (F3 : forall x f, In x inits -> init_el match os with Some d => d | None => [] end x = Ok f ->
    same_numbers x f).
  { intros x f X E. apply num_spec_same; [eapply init_el_ns; eauto|]. intros m0. exact (TOK _ _ _ _ II X). }
  split; [|split].
  - intros x X. assert (Y : exists f, In f init /\ init_el match os with Some d => d | None => [] end x = Ok f).
    { clear - F2 X. induction F2 as [|y f i j E F IH]; [destruct X|].
      destruct X as [->|X]; [exists f; split; [now left|exact E]|].
      destruct (IH X) as (f' & H' & E'). exists f'. split; [now right|exact E']. }
    destruct Y as (f & Y & E). pose proof (F3 x f X E) as S.
    assert (Mb : memb form_eqb f (p_init p) = true).
    { rewrite Mi, memb_dedup by apply form_eqb_equiv. apply memb_In. exists f. split; auto.
      apply (eqv_refl _ form_eqb_equiv). }
    apply memb_In in Mb as (f' & I' & E'). exists f'. split; auto. eapply same_numbers_eqb; eauto.
  - intros f Hf. rewrite Mi in Hf. apply dedup_In in Hf.
    assert (Y : exists x, In x inits /\ init_el match os with Some d => d | None => [] end x = Ok f).
    { clear - F2 Hf. induction F2 as [|y f' i j E F IH]; [destruct Hf|].
      destruct Hf as [->|Hf]; [exists y; split; [now left|exact E]|].
      destruct (IH Hf) as (x & H' & E'). exists x. split; [now right|exact E']. }
    destruct Y as (x & X & E). exists x. split; auto.
  - rewrite Mg. apply num_spec_same; [eapply gd_ns; [exact problem_vars|exact G]|].
    intros m0. exact (TOK _ _ _ _ IG (or_introl eq_refl)).
Qed.
Lemma parsed_metric_raw s p m v : parse_problem s = Ok p -> p_metric p = Some m ->
  within (FNumVal v) (me_expr m) -> exists t, v = NStr t.
Proof.
  intros P E W. apply parse_problem_inv in P as (n & dn & l & T & R).
  apply problem_rule_inv in R as (o1 & o2 & inits & g & o5 & rs & os & init & goal & m' & -> & _ & _ & _ & _ & M & K).
  apply mk_problem_fields in K as (_ & _ & Km & _). rewrite E in Km. subst m'.
  destruct o5 as [b|]; cbn in M; [|discriminate]. apply bind_Ok in M as (m' & M & X). injection X as <-.
  apply metric_spec_inv in M as (o & e & _ & _ & _ & F). destruct (metric_raw _ _ F v W) as (t & -> & _). eauto.
Qed.
