(** The conditions of whole texts mean what is written. *)
From Coq Require Import String List Bool Arith Lia ZArith QArith.
From Verif Require Import Py Names Reqs Logic Validation Core Lexer TypedList UpdateTags Parser.
From Verif Require Import Sem Spec Spec_Core Spec_Parse Spec_Derived Spec_Numbers Spec_Meaning.
From Verif Require Import Py_facts Logic_facts Ops_facts Built_facts Names_facts CoreEq_facts Inst_facts
  Parse_facts GD_facts NF_facts Derived_facts Domain_facts Derived_facts2 Feature_facts Action_facts
  Problem_facts Number_facts NumberText_facts Meaning_facts.
Import ListNotations.
Open Scope string_scope.
Open Scope list_scope.

(** ** the state of a fresh parser *)
Record st_wf (st : dstate) : Prop := {
  wf_const : Forall (fun kv => fst (snd kv) = fst kv) (s_constants st);
  wf_param : Forall (fun kv => v_name (snd kv) = fst kv) (s_params st)
}.
Lemma st_wf_ctx st : st_wf st -> ctx_ok (domain_ctx st).
Proof.
  intros [A B]. split.
  - intros n t. cbn [domain_ctx g_const]. destruct (dict_get String.eqb n (s_constants st)) as [k|] eqn:D;
      [|discriminate]. intros [= <-]. apply dict_get_In in D as (m & D & E). apply String.eqb_eq in E.
    subst m. rewrite Forall_forall in A. specialize (A _ D). cbn in A. unfold const_term. rewrite A. eauto.
  - cbn [domain_ctx g_params]. now apply params_table_ok.
Qed.
Lemma constants_named l d : objects_section l = Ok d -> Forall (fun kv => fst (snd kv) = fst kv) d.
Proof.
  unfold objects_section. intros H. apply bind_Ok in H as (tl & _ & H). unfold constants_by_name in H.
  apply bind_Ok in H as (cs & M & H). injection H as <-. apply dict_of_list_Forall.
  apply mapR_Ok in M. induction M as [|p x tl cs E M IH]; constructor; auto.
  apply bind_Ok in E as (k & K & E). injection E as <-. apply mk_const_Ok in K as (-> & _). reflexivity.
Qed.
Lemma action_wf l st st' a : st_wf st -> action_def l st = (st', Ok a) -> st_wf st'.
Proof.
  intros [A B] H. pose proof (action_params_table _ _ _ _ H) as [P _]. split; auto.
  apply action_def_st in H as (n & ps & body & vs & b & _ & H & _).
  apply action_parameters_st in H as (tl & vars & _ & _ & -> & _). exact A.
Qed.
Lemma runs_all_inv {A B} (f : A -> M B) (I : dstate -> Prop) st l ys st' x :
  runs f st l ys st' -> I st -> (forall x s s' z, I s -> f x s = (s', Ok z) -> I s') ->
  In x l -> exists s s' y, I s /\ In y ys /\ f x s = (s', Ok y).
Proof.
  induction 1 as [|st x' st1 z l ys st2 F R IH]; intros I0 K Y; [destruct Y|].
  destruct Y as [->|Y].
  - exists st, st1, z. simpl. auto.
  - destruct IH as (s & s' & y & Is & Hy & Hf); eauto. exists s, s', y. simpl. auto.
Qed.

Lemma parsed_structures s n l st' d :
  domain_text s n l -> parse_domain s init_dstate = (st', Ok d) ->
  (forall a, In a (d_actions d) -> exists body s1 s2,
     In (section_sx ":action" body) l /\ action_def body s1 = (s2, Ok a) /\ st_wf s1)
  /\ (forall body, In (section_sx ":action" body) l -> exists s1 s2 a,
     action_def body s1 = (s2, Ok a) /\ st_wf s1 /\ memb action_eqb a (d_actions d) = true)
  /\ (forall dp, In dp (d_derived d) -> exists body s1 s2,
     In (section_sx ":derived" body) l /\ derived_def body s1 = (s2, Ok dp) /\ st_wf s1)
  /\ (forall body, In (section_sx ":derived" body) l -> exists s1 s2 dp,
     derived_def body s1 = (s2, Ok dp) /\ st_wf s1 /\ memb derived_eqb dp (d_derived d) = true).
Proof.
  intros T H. apply parse_domain_inv in H as (n' & l0 & T' & H).
  unfold domain_text in *. rewrite T in T'. injection T' as _ <-.
  apply domain_rule_inv in H as (o1 & l1 & st1 & rs & o2 & l2 & st2 & ty & o3 & l3 & st3 & cs & o4
    & l4 & st4 & ps & o5 & l5 & fs & st6 & xs & S1 & H1 & S2 & H2 & S3 & H3 & S4 & H4 & S5 & _ & H6 & _ & K).
  assert (W1 : st_wf st1).
  { apply optM_Ok in H1. destruct o1; [|destruct H1 as [-> _]; split; constructor].
    destruct H1 as (? & R & _). apply requirements_st in R as (? & _ & _ & ->). split; constructor. }
  assert (W2 : st_wf st2).
  { apply optM_Ok in H2. destruct o2; [|now destruct H2 as [-> _]].
    destruct H2 as (? & R & _). apply types_st in R as (-> & _). destruct W1. split; auto. }
  assert (W3 : st_wf st3).
  { apply optM_Ok in H3. destruct o3; [|now destruct H3 as [-> _]].
    destruct H3 as (? & R & _). apply constants_st in R as (? & O & -> & _). destruct W2. split; auto.
    cbn [set_constants s_constants]. eapply constants_named; eauto. }
  assert (W4 : st_wf st4).
  { apply optM_Ok in H4. destruct o4; [|now destruct H4 as [-> _]].
    destruct H4 as (? & R & _). apply predicates_st in R as (_ & _ & ->). destruct W3. split; auto. }
  apply mk_domain_inv in K as (_ & _ & _ & _ & _ & _ & _ & Kd & _ & Ka & _).
  apply mapM_runs in H6.
  assert (Inv : forall y a b z, st_wf a -> structure_def y a = (b, Ok z) -> st_wf b).
  { intros y a b z W F. apply structure_def_st in F as [F|F].
    - destruct F as (body & ac & _ & _ & F). eapply action_wf; eauto.
    - destruct F as (body & ac & _ & _ & F). apply derived_def_st in F as [-> _]. exact W. }
  assert (Up : forall y, In y l5 -> In y l).
  { intros y Hy. eapply section_incl; [exact S1|]. eapply section_incl; [exact S2|].
    eapply section_incl; [exact S3|]. eapply section_incl; [exact S4|].
    eapply section_incl; [exact S5|]. exact Hy. }
  assert (Dn : forall y, is_def y -> In y l -> In y l5).
  { intros y DD B. eapply section_keeps; [exact S5| |exact DD|discriminate|discriminate].
    eapply section_keeps; [exact S4| |exact DD|discriminate|discriminate].
    eapply section_keeps; [exact S3| |exact DD|discriminate|discriminate].
    eapply section_keeps; [exact S2| |exact DD|discriminate|discriminate].
    eapply section_keeps; [exact S1| |exact DD|discriminate|discriminate]. exact B. }
  split; [|split; [|split]].
  - intros a A. rewrite Ka in A. apply dedup_In in A. apply in_flat_map in A as (x & Dx & Dd).
    destruct x as [a'|]; [|destruct Dd]. destruct Dd as [->|[]].
    destruct (runs_In structure_def st_wf _ _ _ _ (@inl action derived a) H6)
      as (y & sti & sti' & W & Hy & F); eauto.
    apply structure_def_st in F as [F|F]; [|destruct F as (? & ? & _ & F & _); discriminate].
    destruct F as (body & a' & -> & [= <-] & F). exists body, sti, sti'. auto.
  - intros body B. apply Dn in B; [|left; eauto].
    destruct (runs_all_inv structure_def st_wf _ _ _ _ _ H6 W4 Inv B) as (s1 & s2 & y & W & Y & F).
    apply structure_def_st in F as [F|F]; [|destruct F as (? & ? & F & _); discriminate].
    destruct F as (b' & a & E & -> & F). injection E as <-. exists s1, s2, a. split; auto. split; auto.
    rewrite Ka, memb_dedup by apply action_eqb_equiv. apply memb_In. exists a.
    split; [|apply (eqv_refl _ action_eqb_equiv)]. apply in_flat_map. exists (inl a). simpl. auto.
  - intros a A. rewrite Kd in A. apply dedup_In in A. apply in_flat_map in A as (x & Dx & Dd).
    destruct x as [|a']; [destruct Dd|]. destruct Dd as [->|[]].
    destruct (runs_In structure_def st_wf _ _ _ _ (@inr action derived a) H6)
      as (y & sti & sti' & W & Hy & F); eauto.
    apply structure_def_st in F as [F|F]; [destruct F as (? & ? & _ & F & _); discriminate|].
    destruct F as (body & a' & -> & [= <-] & F). exists body, sti, sti'. auto.
  - intros body B. apply Dn in B; [|right; eauto].
    destruct (runs_all_inv structure_def st_wf _ _ _ _ _ H6 W4 Inv B) as (s1 & s2 & y & W & Y & F).
    apply structure_def_st in F as [F|F]; [destruct F as (? & ? & F & _); discriminate|].
    destruct F as (b' & a & E & -> & F). injection E as <-. exists s1, s2, a. split; auto. split; auto.
    rewrite Kd, memb_dedup by apply derived_eqb_equiv. apply memb_In. exists a.
    split; [|apply (eqv_refl _ derived_eqb_equiv)]. apply in_flat_map. exists (inr a). simpl. auto.
Qed.

Lemma section_toks s n l k body x : domain_text s n l -> In (section_sx k body) l -> In x body -> toks_ok x.
Proof.
  intros T B X m N. eapply read_text_tok; [exact T|left; reflexivity|].
  apply number_in_list. exists (section_sx k body). split; [right; right; exact B|].
  apply number_in_list. exists x. split; [now right|exact N].
Qed.
Lemma domain_means I st x f : st_wf st -> toks_ok x -> plain_arithmetic x ->
  gd (domain_ctx st) x = Ok f -> means I x f.
Proof.
  intros W T P G. apply (gd_means I (domain_ctx st)); auto using st_wf_ctx.
  intros vs tl vars r Gv V _ e e'. now apply bound_extends with tl.
Qed.
Lemma means_eqb I x f g : form_eqb f g = true -> means I x f -> means I x g.
Proof. intros E M e. rewrite <- (M e). symmetry. now apply holds_eq. Qed.

(** an action and what is written *)
Definition action_text (n : string) (ps : list sexp) (x y : sexp) : sexp :=
  section_sx ":action" [name_sx n; SAtom (TKw ":parameters"); SList ps;
                        SAtom (TKw ":precondition"); x; SAtom (TKw ":effect"); y].
Lemma action_parts body s1 s2 a : st_wf s1 -> action_def body s1 = (s2, Ok a) ->
  exists ps x y p e, section_sx ":action" body = action_text (a_name a) ps x y
    /\ a_pre a = Some p /\ a_eff a = Some e /\ st_wf s2
    /\ emptyor_pregd (domain_ctx s2) x = Ok p /\ emptyor_effect (domain_ctx s2) y = Ok e.
Proof.
  intros W D. pose proof (action_wf _ _ _ _ W D) as W2.
  apply action_def_st in D as (an & ps & bd & vs & b & -> & P & Bd & K).
  apply action_body_inv in Bd as (x & y & -> & Bp & Be).
  unfold mk_action in K. apply bind_Ok in K as (n' & Nm & K). inversion K; subst a. clear K.
  cbn [a_name a_params a_pre a_eff] in *. apply parse_name_Ok' in Nm as [-> _].
  exists ps, x, y, (fst b), (snd b). auto 10.
Qed.
Lemma action_text_toks s n l an ps x y : domain_text s n l -> In (action_text an ps x y) l ->
  toks_ok x /\ toks_ok y.
Proof. intros T B. split; (eapply section_toks; [exact T|exact B|simpl; auto 12]). Qed.

Lemma parsed_preconditions s n l d :
  domain_text s n l -> parse_domain_fresh s = Ok d ->
  (forall a, In a (d_actions d) -> exists ps x y p, In (action_text (a_name a) ps x y) l /\ a_pre a = Some p
     /\ (x <> SList [] -> plain_arithmetic x -> forall I, means I x p))
  /\ (forall an ps x y, In (action_text an ps x y) l -> exists a p, In a (d_actions d) /\ a_name a = an
     /\ a_pre a = Some p
     /\ (x <> SList [] -> plain_arithmetic x -> forall I, means I x p)).
Proof.
  intros T H. unfold parse_domain_fresh in H. destruct (parse_domain s init_dstate) as [st' r] eqn:E.
  cbn [snd] in H. subst r. destruct (parsed_structures _ _ _ _ _ T E) as (A1 & A2 & _).
  assert (Z : forall st x p, toks_ok x -> st_wf st -> emptyor_pregd (domain_ctx st) x = Ok p ->
    x <> SList [] -> plain_arithmetic x -> forall I, means I x p).
  { intros st x p Tx W G N P I. eapply domain_means; eauto.
    destruct x as [|[|]]; [exact G|congruence|exact G]. }
  split.
  - intros a A. destruct (A1 a A) as (body & s1 & s2 & B & D & W).
    destruct (action_parts _ _ _ _ W D) as (ps & x & y & p & e & Eb & Ep & _ & W2 & Gp & _).
    rewrite Eb in B. exists ps, x, y, p. split; auto. split; auto.
    eapply Z; eauto. apply (action_text_toks _ _ _ _ _ _ _ T B).
  - intros an ps x y B. destruct (A2 _ B) as (s1 & s2 & a & D & W & M).
    destruct (action_parts _ _ _ _ W D) as (ps' & x' & y' & p & e & Eb & Ep & _ & W2 & Gp & _).
    injection Eb as -> -> <- <-. apply memb_In in M as (b & Ib & Eb). unfold action_eqb in Eb.
    rewrite !andb_true_iff in Eb. destruct Eb as (((E1 & _) & E3) & _). apply String.eqb_eq in E1.
    rewrite Ep in E3. destruct (a_pre b) as [q|] eqn:Pb; [|discriminate]. cbn [option_eqb] in E3.
    exists b, q. repeat (split; [auto; fail|]). intros N P I. eapply means_eqb; [exact E3|].
    eapply Z; eauto. apply (action_text_toks _ _ _ _ _ _ _ T B).
Qed.

(** ** derived predicates *)
Lemma den_strip I e t : den I e (strip_term t) = den I e t.
Proof. now destruct t. Qed.
Lemma dens_strip I e ts : map (den I e) (map strip_term ts) = map (den I e) ts.
Proof. rewrite map_map. apply map_ext. apply den_strip. Qed.
Lemma value_strip I f : forall e, value I e (strip f) = value I e f.
Proof.
  induction f using form_ind'; intros e; cbn [strip]; try reflexivity.
  - cbn [value]. now rewrite dens_strip.
  - rewrite !value_binfun, map_map. f_equal. apply map_ext_in. intros x X.
    rewrite Forall_forall in H. now apply H.
Qed.
Lemma values_strip I e ops : map (value I e) (map strip ops) = map (value I e) ops.
Proof. rewrite map_map. apply map_ext. intros. apply value_strip. Qed.
Lemma holds_strip I f : forall e, holds I e (strip f) <-> holds I e f.
Proof.
  induction f using form_ind'; intros e; cbn [strip]; try reflexivity.
  - cbn [holds]. now rewrite dens_strip.
  - cbn [holds]. now rewrite !den_strip.
  - destruct k; try reflexivity.
    + cbn [holds]. now rewrite values_strip.
    + destruct ops as [|a [|b [|]]]; try reflexivity. cbn [map holds]. now rewrite !value_strip.
    + destruct ops as [|a [|b [|]]]; try reflexivity. cbn [map holds]. now rewrite !value_strip.
    + destruct ops as [|a [|b [|]]]; try reflexivity. cbn [map holds]. now rewrite !value_strip.
    + destruct ops as [|a [|b [|]]]; try reflexivity. cbn [map holds]. now rewrite !value_strip.
  - destruct k; try reflexivity.
    + cbn [holds]. induction H; cbn [map fold_right]; [reflexivity|]. now rewrite H, IHForall.
    + cbn [holds]. induction H; cbn [map fold_right]; [reflexivity|]. now rewrite H, IHForall.
    + destruct ops as [|a [|b [|]]]; try reflexivity. cbn [map holds].
      inversion H as [|? ? H1 H']; subst. inversion H' as [|? ? H2 _]; subst. now rewrite H1, H2.
  - cbn [holds]. now rewrite IHf.
  - destruct q; cbn [holds]; split.
    + intros X e' B. now apply IHf, X.
    + intros X e' B. now apply IHf, X.
    + intros (e' & B & X). exists e'. split; auto. now apply IHf.
    + intros (e' & B & X). exists e'. split; auto. now apply IHf.
Qed.
Lemma strip_means I x f g : strip f = strip g -> means I x f -> means I x g.
Proof. intros E M e. now rewrite <- (M e), <- holds_strip, <- E, holds_strip. Qed.

Lemma derived_strip st st' h x d : params_ok st -> derived_def [h; x] st = (st', Ok d) ->
  (exists cond, gd (domain_ctx st) x = Ok cond /\ strip (dp_cond d) = strip cond)
  /\ exists ts, atomic_formula_skeleton h = Ok (dp_name d, ts)
       /\ map strip_term (dp_terms d) = map strip_term ts.
Proof.
  intros P H. unfold derived_def, bindM, ret, reads in H.
  destruct (atomic_formula_skeleton h) as [head|] eqn:A; [|discriminate].
  destruct (gd (domain_ctx st) x) as [cond|] eqn:G; [|discriminate].
  apply (f_equal snd) in H. rename H into H2. cbn [snd] in H2. unfold derived_callback in H2.
  destruct (dict_get String.eqb (fst head) (s_predicates st)) as [def|]; [|discriminate].
  apply bind_Ok in H2 as ([] & L & H). apply bind_Ok in H as (m & M & H). apply bind_Ok in H as (p & U & H).
  apply bind_Ok in H as (cond' & C & H).
  simpl in U. apply bind_Ok in U as (ts' & T & U). apply mk_pred_Ok in U. subst p.
  inversion H; subst d. cbn [dp_terms dp_cond dp_name] in *. clear H.
  apply replace_terms_retag in T.
  pose proof (gd_uniform _ _ _ P G) as GU.
  pose proof (update_retag _ _ _ _ (built_nff _ (gd_built _ _ _ G)) GU (gd_binders_ok _ _ _ G) C)
    as ->.
  split.
  - exists cond. split; auto. apply strip_retag.
  - exists (snd head). split; [now destruct head|].
    rewrite T, map_map. apply map_ext. intros [n o|v]; auto. cbn [retag_term].
    destruct (lookup m (v_name v)); reflexivity.
Qed.
Lemma strip_names ts us : map strip_term ts = map strip_term us -> map t_name ts = map t_name us.
Proof.
  intros E. assert (N : forall l, map t_name (map strip_term l) = map t_name l).
  { intros l. rewrite map_map. apply map_ext. now intros []. }
  rewrite <- (N ts), <- (N us). now rewrite E.
Qed.
Lemma skeleton_written h n ts : atomic_formula_skeleton h = Ok (n, ts) ->
  exists vs groups tail, h = SList (name_sx n :: vs) /\ written_vars vs groups tail
    /\ map t_name ts = map fst (assigned groups tail).
Proof.
  unfold atomic_formula_skeleton. destruct h as [|[|[[]|] vs]]; try discriminate. intros H.
  apply bind_Ok in H as (tl & T & H). apply bind_Ok in H as (vars & V & H).
  apply bind_Ok in H as (p & P & H). apply mk_pred_Ok in P. subst p. injection H as -> <-.
  pose proof (typed_vars_ok _ _ _ T V) as F.
  apply typed_list_variable_iff in T as (groups & tail & W & E & _). exists vs, groups, tail.
  split; auto. split; auto. rewrite <- E. rewrite map_map. clear - F.
  induction F as [|q v tl vars [-> _] F IH]; cbn [map]; [reflexivity|]. now rewrite IH.
Qed.

Lemma parsed_derived s n l d :
  domain_text s n l -> parse_domain_fresh s = Ok d ->
  (forall dp, In dp (d_derived d) -> exists vs groups tail x,
     In (section_sx ":derived" [SList (name_sx (dp_name dp) :: vs); x]) l
     /\ written_vars vs groups tail /\ map t_name (dp_terms dp) = map fst (assigned groups tail)
     /\ (plain_arithmetic x -> forall I, means I x (dp_cond dp)))
  /\ (forall pn vs x, In (section_sx ":derived" [SList (name_sx pn :: vs); x]) l ->
     exists dp groups tail, In dp (d_derived d) /\ dp_name dp = pn
     /\ written_vars vs groups tail /\ map t_name (dp_terms dp) = map fst (assigned groups tail)
     /\ (plain_arithmetic x -> forall I, means I x (dp_cond dp))).
Proof.
  intros T H. unfold parse_domain_fresh in H. destruct (parse_domain s init_dstate) as [st' r] eqn:E.
  cbn [snd] in H. subst r. destruct (parsed_structures _ _ _ _ _ T E) as (_ & _ & A1 & A2).
  assert (Z : forall st st' h x dp, toks_ok x -> st_wf st -> derived_def [h; x] st = (st', Ok dp) ->
    exists vs groups tail, h = SList (name_sx (dp_name dp) :: vs) /\ written_vars vs groups tail
      /\ map t_name (dp_terms dp) = map fst (assigned groups tail)
      /\ (plain_arithmetic x -> forall I, means I x (dp_cond dp))).
  { intros st st0 h x dp Tx W D.
    destruct (derived_strip _ _ _ _ _ (params_table_ok _ (wf_param _ W)) D) as ((cond & G & S) & (ts & Sk & Nm)).
    destruct (skeleton_written _ _ _ Sk) as (vs & groups & tail & Eh & Wr & En).
    exists vs, groups, tail. split; auto. split; auto. split; [rewrite <- En; now apply strip_names|].
    intros P I. eapply strip_means; [symmetry; exact S|]. eapply domain_means; eauto. }
  split.
  - intros dp D. destruct (A1 dp D) as (body & s1 & s2 & B & F & W).
    pose proof (derived_def_st _ _ _ _ F) as (_ & h & x & ->).
    destruct (Z _ _ _ _ _ (section_toks _ _ _ _ _ x T B ltac:(simpl; auto)) W F)
      as (vs & groups & tail & -> & R). exists vs, groups, tail, x. auto.
  - intros pn vs x B. destruct (A2 _ B) as (s1 & s2 & dp & F & W & M).
    destruct (Z _ _ _ _ _ (section_toks _ _ _ _ _ x T B ltac:(simpl; auto)) W F)
      as (vs' & groups & tail & Eh & Wr & Nm & Me). injection Eh as -> <-.
    apply memb_In in M as (b & Ib & Eb). unfold derived_eqb in Eb.
    cbn [dp_pred form_eqb] in Eb.
    rewrite !andb_true_iff in Eb. destruct Eb as ((E1 & E2) & E3). apply String.eqb_eq in E1.
    exists b, groups, tail. split; auto. split; auto. split; auto. split.
    + rewrite <- Nm. clear - E2. revert E2. generalize (dp_terms b).
      induction (dp_terms dp) as [|t ts IH]; intros [|u us]; cbn; try discriminate; auto.
      rewrite andb_true_iff. intros [Et Es]. rewrite (IH _ Es). f_equal.
      destruct t, u; cbn in *; try discriminate.
      * symmetry. now apply String.eqb_eq.
      * unfold var_eqb in Et. apply andb_true_iff in Et as [Et _]. symmetry. now apply String.eqb_eq.
    + intros P I. eapply means_eqb; [exact E3|auto].
Qed.

(** ** problems *)
Lemma problem_ctx_ok : ctx_ok problem_ctx.
Proof.
  split.
  - intros n t. cbn. intros H. apply mk_const_Ok in H as (-> & _). eauto.
  - discriminate.
Qed.
Lemma problem_means I x f : toks_ok x -> plain_arithmetic x -> gd problem_ctx x = Ok f -> means I x f.
Proof.
  intros T P G. apply (gd_means I problem_ctx); auto using problem_ctx_ok. discriminate.
Qed.
Lemma words_text objs ns ts :
  (forall n k, dict_get String.eqb n objs = Some k -> fst k = n) ->
  mapR (fun x => match dict_get String.eqb x objs with Some k => Ok (const_term k) | None => mk_const x None end) ns
    = Ok ts -> map name_sx ns = flat_map term_text ts.
Proof.
  intros K M. apply mapR_Ok in M. induction M as [|n t ns ts E M IH]; cbn; auto. rewrite IH.
  destruct (dict_get String.eqb n objs) as [k|] eqn:D.
  - injection E as <-. cbn. now rewrite (K _ _ D).
  - apply mk_const_Ok in E as (-> & _). reflexivity.
Qed.
Lemma atomic_name_says objs n args f :
  (forall n k, dict_get String.eqb n objs = Some k -> fst k = n) ->
  atomic_formula_name objs (SList (SAtom (TWord n) :: args)) = Ok f ->
  exists ts, f = FPred n ts /\ args = flat_map term_text ts.
Proof.
  intros K H. cbn [atomic_formula_name] in H. apply bind_Ok in H as (ns & W & H). apply of_opt_Ok' in W.
  apply bind_Ok in H as (ts & M & H). apply mk_pred_Ok in H. subst. exists ts. split; auto.
  apply mapO_word_inv in W. subst. eapply words_text; eauto.
Qed.
Lemma basic_amount I e x f : basic_function_term x = Ok f ->
  exists q, amount I e x q /\ value I e f = q.
Proof.
  destruct x as [[]|[|[[]|] l]]; cbn; try discriminate; intros H.
  - apply mk_numfun_Ok in H. subst. eexists. split; [constructor|reflexivity].
  - apply bind_Ok in H as (ns & W & H). apply of_opt_Ok' in W. apply bind_Ok in H as (ts & M & H).
    apply mk_numfun_Ok in H. subst. apply mapO_word_inv in W. subst. eexists. split; [|reflexivity].
    constructor. rewrite (words_text [] ns ts); [apply denotes_terms|discriminate|exact M].
Qed.
Lemma pred_head_says I e n args : legal_name n ->
  says I e (SList (SAtom (TWord n) :: args)) = exists os, denotes I e args os /\ i_pred I n os.
Proof.
  intros [_ R]. cbn [says].
  destruct (String.eqb_spec n "and") as [->|_]; [destruct R; vm_compute; tauto|].
  destruct (String.eqb_spec n "or") as [->|_]; [destruct R; vm_compute; tauto|].
  destruct (String.eqb_spec n "not") as [->|_]; [destruct R; vm_compute; tauto|].
  destruct (String.eqb_spec n "imply") as [->|_]; [destruct R; vm_compute; tauto|].
  destruct (String.eqb_spec n "forall") as [->|_]; [destruct R; vm_compute; tauto|].
  destruct (String.eqb_spec n "exists") as [->|_]; [destruct R; vm_compute; tauto|]. reflexivity.
Qed.
Lemma init_means objs x f I :
  (forall n k, dict_get String.eqb n objs = Some k -> fst k = n) -> toks_ok x ->
  init_el objs x = Ok f -> means I x f.
Proof.
  intros K T H e. unfold init_el in H. destruct x as [|[|[[| | |w| |o| |]|] args]]; try discriminate.
  - assert (A : forall m l g, atomic_formula_name objs (SList (SAtom (TWord m) :: l)) = Ok g ->
      (holds I e g <-> says I e (SList (SAtom (TWord m) :: l)))).
    { intros m l g G. pose proof G as G'. apply atomic_name_says in G as (ts & -> & E); auto.
      cbn [atomic_formula_name] in G'. apply bind_Ok in G' as (ns & _ & G').
      apply bind_Ok in G' as (ts' & _ & G'). apply mk_pred_iff in G' as (_ & L & _).
      rewrite pred_head_says by exact L. now apply pred_says. }
    destruct (String.eqb_spec w "not") as [->|N].
    + destruct args as [|y [|]]; try discriminate. apply bind_Ok in H as (g & G & H). injection H as <-.
      cbn [mk_not holds says String.eqb Ascii.eqb Bool.eqb].
      destruct y as [|[|[[]|] l]]; try discriminate. apply not_iff_compat. now apply A.
    + now apply A.
  - destruct args as [|f0 args]; try discriminate. destruct args as [|k args]; try discriminate.
    destruct k as [k|]; try discriminate. destruct k as [| | | |m| | |]; try discriminate.
    destruct args; try discriminate. destruct (String.eqb_spec o "=") as [->|]; [|discriminate].
    apply bind_Ok in H as (g & G & H). apply bind_Ok in H as (v & L & H). injection H as <-.
    destruct (basic_amount I e _ _ G) as (p & Ap & Vp).
    assert (Tm : num_tok m). { apply T. apply number_in_list. exists (SAtom (TNum m)). simpl. split; [auto|constructor]. }
    destruct (literal_numeral _ _ Tm L) as (q & r & Q & V & R).
    assert (NG : is_num g).
    { destruct f0 as [[]|[|[[]|] l]]; cbn in G; try discriminate.
      - apply mk_numfun_Ok in G. subst. constructor.
      - apply bind_Ok in G as (? & _ & G). apply bind_Ok in G as (? & _ & G).
        apply mk_numfun_Ok in G. subst. constructor. }
    rewrite holds_mk_equal by (constructor; [auto|constructor; [constructor|constructor]]).
    assert (Vq : (value I e (FNumVal v) == q)%Q) by (cbn; unfold num_q; now rewrite V).
    assert (Eq : (holds I e (FBinFun BEqual [g; FNumVal v]) <-> (p == q)%Q)).
    { cbn [holds map In]. split.
      - intros X. rewrite <- Vp, <- Vq. apply X; auto.
      - intros E. assert (E' : (value I e g == value I e (FNumVal v))%Q) by now rewrite Vp, Vq.
        intros a b [<-|[<-|[]]] [<-|[<-|[]]]; try reflexivity; auto. now symmetry. }
    rewrite Eq. cbn [says]. split.
    + intros E. right. split.
      * intros [_ (t & u & (a & [->| ->]) & (b & [->| ->]) & X)]; discriminate.
      * exists f0, (SAtom (TNum m)), p, q. split; auto. split; auto. split; [now constructor|]. left. auto.
    + intros [(_ & a & D)|(_ & x & y & p' & q' & [= <- <-] & A1 & A2 & Cm)].
      * inversion D as [|? ? ? D1|? ? ? D1]; subst; inversion D1.
      * rewrite (amount_unique _ _ _ _ _ Ap A1).
        rewrite (amount_unique _ _ _ _ _ (am_num I e _ _ Q) A2).
        destruct Cm as [(_ & X)|[(X & _)|[(X & _)|[(X & _)|(X & _)]]]]; try discriminate. exact X.
Qed.

Lemma parsed_problem_means s n dn l p :
  problem_text s n dn l -> parse_problem s = Ok p ->
  exists rest inits g tail,
    l = rest ++ section_sx ":init" inits :: section_sx ":goal" [g] :: tail
    /\ (forall x, In x inits -> exists f, In f (p_init p) /\ forall I, means I x f)
    /\ (forall f, In f (p_init p) -> exists x, In x inits /\ forall I, means I x f)
    /\ (plain_arithmetic g -> forall I, means I g (p_goal p)).
Proof.
  intros T P. pose proof P as P'. apply parse_problem_inv in P' as (n' & dn' & l' & T' & R).
  destruct (problem_text_unique _ _ _ _ _ _ _ T T') as (<- & <- & <-).
  apply problem_rule_inv in R as (o1 & o2 & inits & g & o5 & rs & os & init & goal & m & -> & _ & Os & I & G & _ & M).
  apply mk_problem_fields in M as (Mi & Mg & _).
  exists (opt_section ":requirements" o1 ++ opt_section ":objects" o2), inits, g, (opt_section ":metric" o5).
  split; [unfold problem_sections; now rewrite app_assoc|].
  assert (TOK : forall k b x, In (section_sx k b) (problem_sections o1 o2 inits g o5) -> In x b -> toks_ok x).
  { intros k b x B X m0 N. eapply read_text_tok; [exact T|left; reflexivity|].
    apply number_in_list. exists (section_sx k b). split; [do 3 right; exact B|].
    apply number_in_list. exists x. split; [now right|exact N]. }
  assert (II : In (section_sx ":init" inits) (problem_sections o1 o2 inits g o5)).
  { unfold problem_sections. rewrite app_assoc. apply in_or_app. right. now left. }
  assert (IG : In (section_sx ":goal" [g]) (problem_sections o1 o2 inits g o5)).
  { unfold problem_sections. rewrite app_assoc. apply in_or_app. right. right. now left. }
  set (objs := match os with Some d => d | None => [] end) in *.
  assert (KO : forall k c, dict_get String.eqb k objs = Some c -> fst c = k).
  { intros k c D. subst objs. destruct os as [d|]; [|discriminate].
    destruct o2 as [ol|]; cbn in Os; [|discriminate]. apply bind_Ok in Os as (d' & O & X). injection X as ->.
    apply constants_named in O. apply dict_get_In in D as (k' & D & E). apply String.eqb_eq in E. subst k'.
    rewrite Forall_forall in O. exact (O _ D). }
  assert (F2 : Forall2 (fun x f => init_el objs x = Ok f) inits init) by now apply mapR_Ok.
  assert (F3 : forall x f, In x inits -> init_el objs x = Ok f -> forall I0, means I0 x f).
  { intros x f X E I0. eapply init_means; eauto. }
  split; [|split].
  - intros x X. assert (Y : exists f, In f init /\ init_el objs x = Ok f).
    { clear - F2 X. induction F2 as [|y f i j E F IH]; [destruct X|].
      destruct X as [->|X]; [exists f; split; [now left|exact E]|].
      destruct (IH X) as (f' & H' & E'). exists f'. split; [now right|exact E']. }
    destruct Y as (f & Y & E). pose proof (F3 x f X E) as S.
    assert (Mb : memb form_eqb f (p_init p) = true).
    { rewrite Mi, memb_dedup by apply form_eqb_equiv. apply memb_In. exists f. split; auto.
      apply (eqv_refl _ form_eqb_equiv). }
    apply memb_In in Mb as (f' & I' & E'). exists f'. split; auto. intros I0. eapply means_eqb; eauto.
  - intros f Hf. rewrite Mi in Hf. apply dedup_In in Hf.
    assert (Y : exists x, In x inits /\ init_el objs x = Ok f).
    { clear - F2 Hf. induction F2 as [|y f' i j E F IH]; [destruct Hf|].
      destruct Hf as [->|Hf]; [exists y; split; [now left|exact E]|].
      destruct (IH Hf) as (x & H' & E'). exists x. split; [now right|exact E']. }
    destruct Y as (x & X & E). exists x. split; auto.
  - rewrite Mg. intros Pg I0. eapply problem_means; eauto. eapply TOK; [exact IG|now left].
Qed.
