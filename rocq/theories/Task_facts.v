(** A parsed task has the solutions that its texts describe. *)
From Coq Require Import String List Bool Arith Lia ZArith QArith.
From Verif Require Import Py Names Reqs Logic Validation Core Lexer TypedList UpdateTags Parser.
From Verif Require Import Sem Spec Spec_Core Spec_Parse Spec_Action Spec_Numbers Spec_Meaning Spec_Effect Spec_Declared Spec_Heads
  Spec_Init Spec_Steps Spec_Execute Spec_Task.
From Verif Require Import Py_facts Logic_facts Names_facts Ops_facts Inst_facts Derived_facts Domain_facts Derived_facts2 Action_facts Problem_facts
  Number_facts NumberText_facts Meaning_facts MeaningText_facts Effect_facts EffectText_facts Declared_facts Init_facts
  FormatDomain_facts Vars_facts HeadTypes_facts.
Import ListNotations.
Open Scope string_scope.
Open Scope list_scope.
Close Scope Q_scope.

(** ** types *)
Lemma of_types_same I gs hs o : same_set gs hs -> of_types I gs o -> of_types I hs o.
Proof.
  intros S [->|(g & G & T)].
  - left. destruct hs as [|h hs]; auto. destruct (proj2 (S h) (or_introl eq_refl)).
  - right. exists g. split; auto. now apply S.
Qed.
Lemma of_types_iff I gs hs o : same_set gs hs -> (of_types I gs o <-> of_types I hs o).
Proof. intros S. split; apply of_types_same; auto. intros x. symmetry. apply S. Qed.

(** ** actions *)
Definition params_match (ts : list term) (l : list (string * list string)) : Prop :=
  Forall2 (fun t q => exists v, t = TVar v /\ v_name v = fst q /\ same_set (snd q) (v_tags v)) ts l.
Lemma params_of_match l ts : parameters_of l ts -> NoDup (map fst l) -> params_match ts l.
Proof.
  intros [N T] D. rewrite (Action_facts.firsts_NoDup _ D) in N. unfold params_match.
  assert (G : forall m us, (forall q, In q m -> In q l) -> (forall t, In t us -> In t ts) -> map t_name us = map fst m ->
    Forall2 (fun t q => exists v, t = TVar v /\ v_name v = fst q /\ same_set (snd q) (v_tags v)) us m).
  { induction m as [|[k gs] m IH]; intros [|t us] Hm Hu E; try discriminate; constructor.
    - cbn in E. injection E as E1 _. destruct (T t (Hu _ (or_introl eq_refl))) as (v & -> & S). exists v. cbn in E1.
      split; auto. split; auto. apply S. cbn. rewrite E1. apply Hm. now left.
    - cbn in E. injection E as _ E. apply IH; auto; intros; [apply Hm|apply Hu]; now right. }
  apply G; auto.
Qed.
(** ** heads *)
Definition as_vars (l : list (string * list string)) : list var := map (fun p => mkVar (fst p) (snd p)) l.
Definition head_types (v w : string * list string) : list string := match snd v with [] => snd w | gs => gs end.
Definition head_var (u : var) (vw : (string * list string) * (string * list string)) : Prop :=
  v_name u = fst (fst vw) /\ same_set (v_tags u) (head_types (fst vw) (snd vw)).
Lemma head_vars ty lv : forall dl us, head_of ty (as_vars lv) (as_vars dl) us -> length lv = length dl /\ Forall2 head_var us (combine lv dl).
Proof.
  intros dl us [L H]. unfold as_vars in *. rewrite !map_length in L. split; auto. revert dl L us H.
  induction lv as [|v lv IH]; intros [|w dl] L us H; try discriminate; cbn in *; inversion H; subst; constructor.
  - destruct H2 as (A & B1 & B2). cbn in *. split; auto. unfold head_types. cbn. destruct (snd v) as [|g gs]; [now apply B1|]. now apply B2.
  - apply IH; auto.
Qed.
Lemma heads_fit I (e : env I) lv : forall dl us, length lv = length dl -> Forall2 head_var us (combine lv dl) ->
  (Forall (fun u => Sem.fits I u (e (v_name u))) us <-> Forall2 (fun v w => of_types I (head_types v w) (e (fst v))) lv dl).
Proof.
  induction lv as [|v lv IH]; intros [|w dl] us L H; try discriminate; cbn in H; inversion H as [|x ? us' ? H2 H4]; subst.
  - split; constructor.
  - destruct H2 as (A & B). cbn in A, B. injection L as L. pose proof (IH _ _ L H4) as K.
    assert (X : Sem.fits I x (e (v_name x)) <-> of_types I (head_types v w) (e (fst v))).
    { rewrite A. apply (of_types_iff I (v_tags x)). exact B. }
    split; intros F; inversion F; subst; constructor; tauto.
Qed.
Lemma heads_same I (e : env I) lv dl dl' : same_variables dl' dl -> Forall2 (fun v w => of_types I (head_types v w) (e (fst v))) lv dl' ->
  Forall2 (fun v w => of_types I (head_types v w) (e (fst v))) lv dl.
Proof.
  intros S. revert lv. induction S as [|a b dl' dl [E1 E2] S IH]; intros lv F; inversion F; subst; constructor; auto.
  unfold head_types in *. destruct (snd x); auto. eapply of_types_same; eauto.
Qed.
Lemma heads_named lv : forall dl us, length lv = length dl -> Forall2 head_var us (combine lv dl) ->
  Forall2 (fun t q => exists v, t = TVar v /\ v_name v = fst q) (map TVar us) lv.
Proof.
  induction lv as [|v lv IH]; intros [|w dl] us L H; try discriminate; cbn in H; inversion H as [|x ? us' ? H2 H4]; subst; cbn; constructor.
  - destruct H2. eauto.
  - injection L as L. eauto.
Qed.

Section Domain.
  Variables (s n : string) (l : list sexp) (d : domain).
  Hypothesis T : domain_text s n l.
  Hypothesis H : parse_domain_fresh s = Ok d.
  Hypothesis C : clear_text l.

  Definition action_match (a : action) (ps : list sexp) (x y : sexp) : Prop :=
    (forall lv, lists_vars ps lv -> params_match (a_params a) lv) /\ (exists lv, lists_vars ps lv)
    /\ (forall I e, condition I e (a_pre a) <-> says I e x)
    /\ (forall I e D, Spec_Execute.effect I e (a_eff a) D <-> does I e y D).
  Lemma def_match body s1 s2 a : In (section_sx ":action" body) l -> st_wf s1 -> action_def body s1 = (s2, Ok a) ->
    exists ps x y, section_sx ":action" body = action_text (a_name a) ps x y /\ action_match a ps x y.
  Proof.
    intros B W D. pose proof (action_def_full _ _ _ _ D) as (ps' & x' & y' & p' & e' & Eb' & _ & _ & Ex & Pm & _).
    destruct (MeaningText_facts.action_parts _ _ _ _ W D) as (ps & x & y & p & e & Eb & Ep & Ee & W2 & Gp & Ge).
    rewrite Eb' in Eb. injection Eb as -> -> ->. subst body. destruct (action_text_toks _ _ _ _ _ _ _ T B) as [Tx Ty].
    destruct (proj1 C _ _ _ _ B) as (Cn & Cx & Px & Cy & Py & Ry).
    exists ps, x, y. split; auto. split; [|split; [|split]].
    - intros lv (g & t & Wv & ->). apply params_of_match; [now apply Pm|]. apply Cn. exists g, t. auto.
    - destruct Ex as (g & t & Wv). exists (assigned g t), g, t. auto.
    - intros I e0. rewrite Ep. cbn. assert (M : means I x p); [|apply M]. eapply domain_means; eauto.
      destruct x as [|[|]]; [exact Gp|congruence|exact Gp].
    - intros I e0 D0. rewrite Ee. cbn. assert (M : leads y e); [|apply M]. eapply domain_leads; eauto.
  Qed.
  Lemma action_match_eqb a b ps x y : action_eqb a b = true -> action_match a ps x y -> action_match b ps x y.
  Proof.
    unfold action_eqb. rewrite !andb_true_iff. intros (((_ & E2) & E3) & E4) (P & X & Q & R). split; [|split; [auto|split]].
    - intros lv Lv. specialize (P lv Lv). unfold params_match in *. clear - P E2. revert P E2. generalize (a_params b) as us.
      intros us P; revert us. induction P as [|t q ts lv (v & -> & Nv & Sv) F IH]; intros [|u us] E; try discriminate; constructor.
      + cbn in E. apply andb_true_iff in E as [E _]. destruct u as [|w]; [discriminate|]. cbn in E. unfold var_eqb in E.
        apply andb_true_iff in E as [E1 E2]. apply String.eqb_eq in E1. rewrite set_eqb_string in E2.
        exists w. split; auto. split; [congruence|]. intros g. rewrite (Sv g). apply E2.
      + cbn in E. apply andb_true_iff in E as [_ E]. auto.
    - intros I e. rewrite <- Q. destruct (a_pre a), (a_pre b); try discriminate; cbn; [|reflexivity]. symmetry. now apply holds_eq.
    - intros I e D. rewrite <- R. destruct (a_eff a), (a_eff b); try discriminate; cbn; [|reflexivity]. symmetry. now apply outcome_eq.
  Qed.
  Lemma task_actions :
    (forall a, In a (d_actions d) -> exists ps x y, has_action l (a_name a) ps x y /\ action_match a ps x y)
    /\ (forall an ps x y, has_action l an ps x y -> exists a, In a (d_actions d) /\ a_name a = an /\ action_match a ps x y).
  Proof.
    pose proof H as H'. unfold parse_domain_fresh in H'. destruct (parse_domain s init_dstate) as [st' r] eqn:E.
    cbn [snd] in H'. subst r. destruct (parsed_structures _ _ _ _ _ T E) as (A1 & A2 & _). split.
    - intros a A. destruct (A1 a A) as (body & s1 & s2 & B & D & W). destruct (def_match _ _ _ _ B W D) as (ps & x & y & Eb & M).
      exists ps, x, y. split; auto. unfold has_action. rewrite Eb in B. exact B.
    - intros an ps x y B. destruct (A2 _ B) as (s1 & s2 & a & D & W & M). destruct (def_match _ _ _ _ B W D) as (ps' & x' & y' & Eb & Ma).
      injection Eb as -> -> -> ->. apply memb_In in M as (b & Ib & Eb). exists b. split; auto. split; [|eapply action_match_eqb; eauto].
      unfold action_eqb in Eb. rewrite !andb_true_iff in Eb. destruct Eb as (((E1 & _) & _) & _). symmetry. now apply String.eqb_eq.
  Qed.

  (** ** derived predicates *)
  Definition rule_match (r : derived) (vs : list sexp) (x : sexp) : Prop :=
    (forall lv, lists_vars vs lv -> Forall2 (fun t q => exists v, t = TVar v /\ v_name v = fst q) (dp_terms r) lv
       /\ forall I e, (forall v, In (TVar v) (dp_terms r) -> Sem.fits I v (e (v_name v))) <-> head_fits l I (dp_name r) lv e)
    /\ (exists lv, lists_vars vs lv)
    /\ forall I e, holds I e (dp_cond r) <-> says I e x.
  Lemma rule_def h x s1 s2 r : In (section_sx ":derived" [h; x]) l -> st_for d s1 -> derived_def [h; x] s1 = (s2, Ok r) ->
    exists vs, h = SList (name_sx (dp_name r) :: vs) /\ rule_match r vs x.
  Proof.
    intros B F D. pose proof (st_for_wf _ _ F) as W.
    destruct (derived_strip _ _ _ _ _ (params_table_ok _ (wf_param _ W)) D) as ((cond & G & S) & (ts & Sk & Nm)).
    destruct (skeleton_iff _ _ _ Sk) as (vs & Eh & (g & t & Wv) & V). exists vs. split; auto.
    assert (Hr : has_rule l (dp_name r) vs x) by (unfold has_rule; rewrite <- Eh; exact B).
    destruct (proj2 C _ _ _ Hr) as (Cn & Px & Cu). split; [|split].
    - intros lv Lv. pose proof (Cn _ Lv) as ND. destruct Lv as (g' & t' & Wv' & ->). pose proof (V _ _ Wv') as Et.
      assert (Nn : map t_name (dp_terms r) = map fst (assigned g' t')).
      { rewrite (strip_names _ _ Nm), Et. unfold variables. rewrite map_map. apply map_ext. reflexivity. }
      destruct (head_written d s1 h x s2 r F D) as (ws & us & ds & Sk' & Eu & Hp & Hd); [now rewrite Nn|].
      assert (Ew : ws = as_vars (assigned g' t')).
      { rewrite Sk in Sk'. injection Sk' as Sk'. apply map_TVar_inj. rewrite <- Sk', Et. unfold variables, as_vars. now rewrite map_map. }
      subst ws. set (lv := assigned g' t') in *. clearbody lv.
      destruct (dc_preds _ _ _ (declared_domain s n l d T H) _ _ Hp) as (dl & Dl & Ed).
      assert (Eds : ds = as_vars dl).
      { apply map_TVar_inj. rewrite Ed. unfold variables, as_vars. now rewrite map_map. }
      subst ds. rewrite Eu. destruct (head_vars _ _ _ _ Hd) as [L Z]. split; [eapply heads_named; eauto|]. intros I e.
      transitivity (Forall (fun u => Sem.fits I u (e (v_name u))) us).
      { rewrite Forall_forall. split; intros K v Hv; [apply K; now apply in_map|]. apply in_map_iff in Hv as (v' & Ev & Hv).
        injection Ev as ->. auto. }
      rewrite (heads_fit I e lv dl us L Z). split.
      + intros K. exists dl. split; [exact Dl|exact K].
      + intros (dl' & Dl' & K). eapply heads_same; [|exact K]. now apply Cu.
    - exists (assigned g t), g, t. auto.
    - intros I. assert (M : means I x (dp_cond r)); [|exact M]. eapply strip_means; [symmetry; exact S|].
      eapply domain_means; eauto. eapply section_toks; [exact T|exact B|simpl; auto].
  Qed.
  Lemma rule_match_eqb r q vs x : derived_eqb r q = true -> rule_match r vs x -> rule_match q vs x /\ dp_name r = dp_name q.
  Proof.
    unfold derived_eqb. cbn [dp_pred form_eqb]. rewrite !andb_true_iff. intros ((E1 & E2) & E3) (P & X & M).
    apply String.eqb_eq in E1. split; auto. split; [|split; auto].
    - intros lv Lv. destruct (P lv Lv) as [P1 P2].
      assert (Z : Forall2 (fun t q => exists v, t = TVar v /\ v_name v = fst q) (dp_terms q) lv
        /\ forall I e, (forall v, In (TVar v) (dp_terms r) -> Sem.fits I v (e (v_name v))) <-> (forall v, In (TVar v) (dp_terms q) -> Sem.fits I v (e (v_name v)))).
      { clear - P1 E2. revert E2. generalize (dp_terms q) as us. induction P1 as [|t q' ts lv (v & -> & Nv) F IH]; intros [|u us] E; try discriminate.
        - split; [constructor|]. reflexivity.
        - cbn in E. apply andb_true_iff in E as [E E']. destruct (IH _ E') as [IH1 IH2]. destruct u as [|w]; [discriminate|]. cbn in E.
          unfold var_eqb in E. apply andb_true_iff in E as [E1 E2]. apply String.eqb_eq in E1. rewrite set_eqb_string in E2. split.
          + constructor; auto. exists w. split; auto. congruence.
          + intros I e. specialize (IH2 I e).
            assert (K : Sem.fits I v (e (v_name v)) <-> Sem.fits I w (e (v_name w))).
            { rewrite E1. apply (of_types_iff I (v_tags v) (v_tags w)). exact E2. }
            split; intros A v0 [Ev|Hv].
            * injection Ev as <-. apply K. apply A. now left.
            * apply (proj1 IH2); auto. intros v1 H1. apply A. now right.
            * injection Ev as <-. apply K. apply A. now left.
            * apply (proj2 IH2); auto. intros v1 H1. apply A. now right. }
      destruct Z as [Z1 Z2]. split; auto. intros I e. rewrite <- Z2, <- E1. apply P2.
    - intros I e. rewrite <- M. symmetry. now apply holds_eq.
  Qed.
  Lemma task_rules :
    (forall r, In r (d_derived d) -> exists vs x, has_rule l (dp_name r) vs x /\ rule_match r vs x)
    /\ (forall k vs x, has_rule l k vs x -> exists r, In r (d_derived d) /\ dp_name r = k /\ rule_match r vs x).
  Proof.
    destruct (parsed_domain_parts' s d H) as (n' & l' & T' & PP & PD). unfold domain_text in T, T'. rewrite T in T'. injection T' as <- <-. split.
    - intros r R. destruct (pp_derived _ _ PP r R) as (body & s1 & s2 & B & D & F).
      destruct body as [|h [|c [|]]]; try discriminate. destruct (rule_def _ _ _ _ _ B F D) as (vs & -> & M). exists vs, c. auto.
    - intros k vs x B. destruct (PD _ B) as (s1 & s2 & r & D & F & M). destruct (rule_def _ _ _ _ _ B F D) as (vs' & E & R).
      injection E as -> <-. apply memb_In in M as (q & Iq & Eq). destruct (rule_match_eqb _ _ _ _ Eq R) as [R' En]. exists q. auto.
  Qed.

  Lemma rule_terms r lv I (e : env I) : Forall2 (fun t q => exists v, t = TVar v /\ v_name v = fst q) (dp_terms r) lv ->
    map (den I e) (dp_terms r) = map (fun v : string * list string => e (fst v)) lv.
  Proof. induction 1 as [|t q ts lv (v & -> & E) F IH]; cbn; auto. now rewrite IH, E. Qed.
  Lemma closed_iff I P : closed (d_derived d) I P <-> text_closed l I P.
  Proof.
    destruct task_rules as [R1 R2]. split; intros [F K]; (split; [exact F|]).
    - intros k vs x lv e Hr Lv Hf Sa. destruct (R2 _ _ _ Hr) as (r & Ir & <- & (M1 & _ & M3)). destruct (M1 _ Lv) as [N1 N2].
      rewrite <- (rule_terms r lv I e N1). apply K; auto; [now apply N2|]. now apply M3.
    - intros r e Ir Ft Ho. destruct (R1 r Ir) as (vs & x & Hr & (M1 & (lv & Lv) & M3)). destruct (M1 _ Lv) as [N1 N2].
      rewrite (rule_terms r lv I e N1). eapply K; eauto; [now apply N2|]. now apply M3.
  Qed.
  Lemma completed_iff I J : completed (d_derived d) I J <-> text_completed l I J.
  Proof.
    split; intros (P & -> & E); exists P; (split; [reflexivity|]); intros k os; rewrite E; split; intros A R C0; apply A; now apply closed_iff.
  Qed.

  (** ** execution *)
  Variable next : forall I J : interp, changes J -> interp -> Prop.
  Definition names (st : string * list const) : string * list string := (fst st, map fst (snd st)).
  Lemma gives_iff J (e : env J) ts lv cs : params_match ts lv ->
    (gives J e ts cs <-> Forall2 (fun v c => e (fst v) = i_const J c) lv (map fst cs)).
  Proof.
    unfold gives. intros P. revert cs. induction P as [|t q ts lv (v & -> & N & _) F IH]; intros [|c cs]; cbn; split; intros K; inversion K; subst; try constructor.
    - destruct H3 as (w & Ew & E). injection Ew as <-. congruence.
    - now apply IH.
    - exists v. split; auto. congruence.
    - now apply IH.
  Qed.
  Lemma executes_iff I st I' : executes next d I st I' <-> text_executes l next I (names st) I'.
  Proof.
    destruct task_actions as [A1 A2]. split.
    - intros (a & J & e & D & Ha & An & Cj & G & P & F & X). destruct (A1 a Ha) as (ps & x & y & Hx & (M1 & (lv & Lv) & M3 & M4)).
      exists ps, x, y, lv, J, e, D. cbn [names fst snd]. rewrite <- An. split; auto. split; auto. split; [now apply completed_iff|].
      split; [eapply gives_iff; eauto|]. split; [now apply M3|]. split; [now apply M4|exact X].
    - intros (ps & x & y & lv & J & e & D & Hx & Lv & Cj & G & P & F & X). cbn [names fst snd] in *.
      destruct (A2 _ _ _ _ Hx) as (a & Ha & An & (M1 & _ & M3 & M4)). exists a, J, e, D. split; auto. split; auto.
      split; [now apply completed_iff|]. split; [eapply gives_iff; eauto|]. split; [now apply M3|]. split; [now apply M4|exact X].
  Qed.
  Lemma runs_iff pl : forall I I', Spec_Execute.runs next d I pl I' <-> text_runs l next I (map names pl) I'.
  Proof.
    induction pl as [|st pl IH]; intros I I'; split; intros R; inversion R; subst; try constructor.
    - econstructor; [apply executes_iff; eassumption|]. now apply IH.
    - econstructor; [apply executes_iff; eassumption|]. now apply IH.
  Qed.
  Lemma fitting_iff I pl : fitting d I pl <-> text_fitting l I (map names pl).
  Proof.
    destruct task_actions as [A1 A2].
    assert (Z : forall ts lv cs, params_match ts lv -> (Forall2 (fun t (c : const) => exists v, t = TVar v /\ Sem.fits I v (i_const I (fst c))) ts cs
      <-> Forall2 (fun v c => of_types I (snd v) (i_const I c)) lv (map fst cs))).
    { intros ts lv cs P. revert cs. induction P as [|t q ts lv (v & -> & N & Sm) F IH]; intros [|c cs]; cbn; split; intros K; inversion K; subst; try constructor.
      - destruct H3 as (w & Ew & E). injection Ew as <-. apply (of_types_iff I _ _ _ Sm). exact E.
      - now apply IH.
      - exists v. split; auto. apply (of_types_iff I _ _ _ Sm) in H3. exact H3.
      - now apply IH. }
    split; intros F st Hs.
    - apply in_map_iff in Hs as (st0 & <- & Hs). destruct (F _ Hs) as (a & Ha & An & G). destruct (A1 a Ha) as (ps & x & y & Hx & (M1 & (lv & Lv) & _)).
      exists ps, x, y, lv. cbn [names fst snd]. rewrite <- An. split; auto. split; auto. eapply Z; eauto.
    - destruct (F (names st) (in_map _ _ _ Hs)) as (ps & x & y & lv & Hx & Lv & G). cbn [names fst snd] in *.
      destruct (A2 _ _ _ _ Hx) as (a & Ha & An & (M1 & _)). exists a. split; auto. split; auto. eapply Z; eauto.
  Qed.
End Domain.

(** ** the problem *)
Lemma one_init o1 o2 inits g o5 i : In (section_sx ":init" i) (problem_sections o1 o2 inits g o5) -> i = inits.
Proof.
  unfold problem_sections. intros X. apply in_app_or in X as [X|X]; [destruct o1; cbn in X; intuition discriminate|].
  apply in_app_or in X as [X|X]; [destruct o2; cbn in X; intuition discriminate|].
  destruct X as [X|[X|X]]; [injection X as ->; reflexivity|discriminate|]. destruct o5; cbn in X; intuition discriminate.
Qed.
Lemma one_goal o1 o2 inits g o5 h : In (section_sx ":goal" [h]) (problem_sections o1 o2 inits g o5) -> h = g.
Proof.
  unfold problem_sections. intros X. apply in_app_or in X as [X|X]; [destruct o1; cbn in X; intuition discriminate|].
  apply in_app_or in X as [X|X]; [destruct o2; cbn in X; intuition discriminate|].
  destruct X as [X|[X|X]]; [discriminate|injection X as ->; reflexivity|]. destruct o5; cbn in X; intuition discriminate.
Qed.
Lemma map_name_sx ns cs : map name_sx ns = map name_sx cs -> ns = cs.
Proof. revert cs. induction ns; intros [|c cs] E; try discriminate; auto. cbn in E. injection E as -> E. f_equal. auto. Qed.
Lemma terms_eqb_names ts us cs : Forall2 (fun n t => exists g, t = TConst n g) cs ts -> list_eqb term_eqb ts us = true ->
  exists ks, us = map const_term ks /\ map fst ks = cs.
Proof.
  intros F. revert us. induction F as [|n t cs ts (g & ->) F IH]; intros [|u us] E; try discriminate.
  - exists []. auto.
  - cbn in E. apply andb_true_iff in E as [E E']. destruct u as [n' g'|]; [|discriminate]. cbn in E. apply String.eqb_eq in E. subst n'.
    destruct (IH _ E') as (ks & -> & <-). exists ((n, g') :: ks). auto.
Qed.
Lemma none_consts cs : Forall2 (fun n t => exists g, t = TConst n g) cs (map (fun n => TConst n None) cs).
Proof. induction cs; cbn; constructor; eauto. Qed.
Lemma init_value_eqb k ts v f : form_eqb (FBinFun BEqual [FNumFun k ts; FNumVal v]) f = true ->
  exists us w, f = FBinFun BEqual [FNumFun k us; FNumVal w] /\ list_eqb term_eqb ts us = true /\ num_eqb v w = true.
Proof.
  destruct f as [| | | |b l| | | | |]; try discriminate. cbn [form_eqb]. rewrite andb_true_iff. intros [Eb E].
  destruct b; try discriminate. destruct l as [|x [|y [|]]]; cbn [list_eqb] in E; try (rewrite ?andb_false_r in E; discriminate).
  rewrite !andb_true_iff in E. destruct E as (E1 & E2 & _). destruct x; try discriminate. destruct y; try discriminate. cbn in E1, E2.
  apply andb_true_iff in E1 as [E1 E1']. apply String.eqb_eq in E1. subst. eauto.
Qed.
Section Problem.
  Variables (s pn dn : string) (l : list sexp) (p : problem) (inits : list sexp) (goal : sexp).
  Hypothesis T : problem_text s pn dn l.
  Hypothesis H : parse_problem s = Ok p.
  Hypothesis IG : init_and_goal l inits goal.
  Lemma goal_iff : plain_arithmetic goal -> forall I e, holds I e (p_goal p) <-> says I e goal.
  Proof.
    intros P. destruct (parsed_problem_means _ _ _ _ _ T H) as (rest & i & g & tail & E & _ & _ & M).
    assert (g = goal); [|subst g; now apply M].
    pose proof H as P'. apply parse_problem_inv in P' as (n' & dn' & l' & T' & R).
    destruct (problem_text_unique _ _ _ _ _ _ _ T T') as (<- & <- & <-).
    apply problem_rule_inv in R as (o1 & o2 & i' & g' & o5 & rs & os & init & gl & m & El & _).
    destruct IG as [_ G]. rewrite El in G. apply one_goal in G. subst goal.
    assert (K : In (section_sx ":goal" [g]) l) by (rewrite E; apply in_or_app; right; right; now left).
    rewrite El in K. now apply one_goal in K.
  Qed.
  Lemma init_iff : (forall f, In f (p_init p) -> exists x, In x inits /\ init_says l x f)
    /\ (forall x, In x inits -> exists f f', init_says l x f /\ In f' (p_init p) /\ form_eqb f f' = true).
  Proof.
    destruct (parsed_init _ _ _ _ _ T H) as (rest & i & tail & E & A & B & _).
    assert (i = inits); [|subst i; auto].
    pose proof H as P'. apply parse_problem_inv in P' as (n' & dn' & l' & T' & R).
    destruct (problem_text_unique _ _ _ _ _ _ _ T T') as (<- & <- & <-).
    apply problem_rule_inv in R as (o1 & o2 & i' & g' & o5 & rs & os & init & gl & m & El & _).
    destruct IG as [G _]. rewrite El in G. apply one_init in G. subst inits.
    assert (K : In (section_sx ":init" i) l) by (rewrite E; apply in_or_app; right; now left).
    rewrite El in K. now apply one_init in K.
  Qed.
  Lemma starts_iff I : starts p I <-> text_starts inits I.
  Proof.
    destruct init_iff as [A B].
    assert (Z : forall k os, (exists cs, In (FPred k (map const_term cs)) (p_init p) /\ os = map (fun c => i_const I (fst c)) cs)
      <-> exists cs, In (SList (name_sx k :: map name_sx cs)) inits /\ os = map (i_const I) cs).
    { intros k os. split.
      - intros (cs & F & ->). destruct (A _ F) as (x & X & S). inversion S as [q ns ts N F2| | |]; subst.
        assert (En : ns = map fst cs).
        { clear - F2. revert cs F2. induction ns as [|a ns IH]; intros [|c cs] F; inversion F as [|? ? ? ? (g & E & _) F']; subst; auto. cbn. f_equal; auto.
          cbn in E. now injection E. }
        subst ns. exists (map fst cs). split; auto. now rewrite map_map.
      - intros (cs & X & ->). destruct (B _ X) as (f & f' & S & F & E). inversion S as [q ns ts N F2 E1|q ns ts F2 E1| |]; subst.
        + match goal with X : map name_sx _ = map name_sx _ |- _ => apply map_name_sx in X end. subst ns. destruct f' as [k' us| | | | | | | | |]; try discriminate. cbn in E. apply andb_true_iff in E as [E1 E2].
          apply String.eqb_eq in E1. subst k'. destruct (terms_eqb_names ts us cs) as (ks & -> & <-); auto.
          { clear - F2. induction F2 as [|a t ns ts (g & -> & _)]; constructor; eauto. }
          exists ks. rewrite map_map. auto.
        + destruct cs as [|c cs]; discriminate. }
    unfold starts, text_starts. split; intros [P1 P2]; (split; [intros k os; rewrite P1; rewrite Z; reflexivity|]).
    - intros k cs x t q X FT N. destruct (B _ X) as (f & f' & S & F & E).
      inversion S as [| |f0 ns s0 q0 v r N0 V R|f0 s0 q0 v r N0 V R]; subst.
      + destruct FT as [FT|[FT _]]; [|discriminate]. injection FT as -> FT. apply map_name_sx in FT. subst ns.
        apply init_value_eqb in E as (us & w & -> & E1 & E2). destruct (terms_eqb_names _ us cs (none_consts cs) E1) as (ks & -> & <-).
        rewrite map_map. rewrite (P2 _ _ _ F). destruct (num_eqb_value _ _ _ E2 V) as (r' & V' & R'). unfold num_q. rewrite V', R', R.
        eapply numeral_unique; eauto.
      + destruct FT as [FT|[FT FT']]; [discriminate|]. injection FT as ->. destruct cs; [|discriminate].
        apply init_value_eqb in E as (us & w & -> & E1 & E2). destruct us; [|discriminate].
        rewrite (P2 _ [] _ F). destruct (num_eqb_value _ _ _ E2 V) as (r' & V' & R'). unfold num_q. rewrite V', R', R.
        eapply numeral_unique; eauto.
    - intros k cs v F. destruct (A _ F) as (x & X & S). inversion S as [| |f0 ns s0 q0 v0 r N0 V R|f0 s0 q0 v0 r N0 V R]; subst.
      + assert (En : ns = map fst cs).
        { match goal with X : map _ ns = map _ cs |- _ => revert X end. clear. revert cs. induction ns as [|a ns IH]; intros [|c cs] E; try discriminate; auto. cbn in *. injection E as -> _ E. f_equal. auto. }
        subst ns. rewrite <- (map_map fst (i_const I)). rewrite (P2 k (map fst cs) _ _ q0 X); [|left; reflexivity|exact N0].
        unfold num_q. rewrite V, R. reflexivity.
      + destruct cs; [|discriminate]. rewrite (P2 k [] _ _ q0 X); [|right; auto|exact N0]. unfold num_q. rewrite V, R. reflexivity.
  Qed.
End Problem.

(** ** tasks *)
Lemma type_of_iff s n l d o g : domain_text s n l -> parse_domain_fresh s = Ok d -> (type_of (d_types d) o g <-> text_type_of l o g).
Proof.
  intros T H. pose proof (dc_types _ _ _ (declared_domain s n l d T H)) as K.
  split; induction 1; try constructor; (econstructor; [apply K; eassumption|auto]).
Qed.
Lemma typed_iff sd n dl d sp pn dn l p I : domain_text sd n dl -> parse_domain_fresh sd = Ok d -> problem_text sp pn dn l -> parse_problem sp = Ok p ->
  (typed d p I <-> text_typed dl l I).
Proof.
  intros T H T' H'. pose proof (dc_consts _ _ _ (declared_domain sd n dl d T H)) as Kc.
  pose proof (pd_objects _ _ _ _ (declared_problem sp pn dn l p T' H')) as Ko.
  assert (Z : forall g o, (exists c, (In c (d_constants d) \/ In c (p_objects p)) /\ o = i_const I (fst c) /\ type_of (d_types d) (snd c) g)
    <-> exists c t, (declares_name ":constants" dl c t \/ declares_name ":objects" l c t) /\ o = i_const I c /\ text_type_of dl t g).
  { intros g o. split.
    - intros ([c t] & A & -> & B). exists c, t. rewrite <- Kc, <- Ko. split; auto. split; auto. now apply (type_of_iff _ _ _ _ _ _ T H).
    - intros (c & t & A & -> & B). exists (c, t). rewrite Kc, Ko. split; auto. split; auto. now apply (type_of_iff _ _ _ _ _ _ T H). }
  unfold typed, text_typed. split; intros K g o; rewrite K; [|symmetry]; apply Z.
Qed.
Lemma solves_iff next sd n dl d sp pn dn l p inits goal I pl :
  domain_text sd n dl -> parse_domain_fresh sd = Ok d -> clear_text dl ->
  problem_text sp pn dn l -> parse_problem sp = Ok p -> init_and_goal l inits goal -> plain_arithmetic goal ->
  (solves next d p I pl <-> text_solves dl next inits goal I (map names pl)).
Proof.
  intros T H C T' H' IG PA. unfold solves, text_solves.
  rewrite (starts_iff _ _ _ _ _ _ _ T' H' IG I), (fitting_iff _ _ _ _ T H C I pl).
  assert (R : forall J, reached d p J <-> text_reached dl goal J).
  { intros J. unfold reached, text_reached. split; intros (K & A & B); exists K; (split; [eapply completed_iff; eauto|]); intros e;
      eapply goal_iff; eauto. }
  split; intros (A & B & J & Ru & Re); (split; [exact A|]; split; [exact B|]; exists J; split; [eapply runs_iff; eauto|now apply R]).
Qed.
