(** A parsed effect makes the changes that the text says. *)
From Coq Require Import String List Bool Arith ZArith QArith Lia.
From Verif Require Import Py Names Reqs Logic Validation Core Lexer TypedList UpdateTags Parser.
From Verif Require Import Sem Spec_Parse Spec_Numbers Spec_Meaning Spec_Effect.
From Verif Require Import Py_facts Logic_facts Ops_facts Built_facts Inst_facts Parse_facts GD_facts Derived_facts
  Domain_facts Action_facts Number_facts Names_facts Meaning_facts MeaningText_facts CoreEq_facts Effect_facts.
Import ListNotations.
Open Scope string_scope.
Open Scope list_scope.

Definition leads (x : sexp) (f : form) : Prop := forall I e D, outcome I e f D <-> does I e x D.

Section Effects.
  Variable c : gctx.
  Hypothesis C : ctx_ok c.
  Hypothesis HV : forall vs tl vars, g_vars c vs = Ok tl -> mk_vars tl = Ok vars ->
    forall I e e', extends I vars e e' <-> bound I vs e e'.
  Hypothesis GM : forall I x f, toks_ok x -> plain_arithmetic x -> gd c x = Ok f -> means I x f.

  Lemma reserved_effect n : legal_name n -> ~ In n effect_words.
  Proof. intros [_ R] X. apply R. cbn in X. vm_compute. tauto. Qed.

  Lemma pred_leads I e n args ts D : legal_name n -> args = flat_map term_text ts ->
    (outcome I e (FPred n ts) D <-> does I e (SList (name_sx n :: args)) D).
  Proof.
    intros L ->. apply reserved_effect in L. split; intros H.
    - inversion H; subst. eapply do_add; eauto. apply denotes_terms.
    - assert (X : forall w, In w effect_words -> n <> w) by (intros w W ->; auto).
      inversion H as [|? ? os ? NL DN ON| |w ? ? ? ? ? ? ? W| | | |]; subst;
        try (exfalso; apply L; cbn; tauto).
      + apply oc_add. now rewrite (denotes_unique _ _ _ _ (denotes_terms I e ts) _ DN).
  Qed.
  Lemma not_leads I e n args ts D : args = flat_map term_text ts ->
    (outcome I e (FNot (FPred n ts)) D <-> does I e (SList [name_sx "not"; SList (name_sx n :: args)]) D).
  Proof.
    intros ->. split; intros H.
    - inversion H; subst. eapply do_del; eauto. apply denotes_terms.
    - inversion H as [|? ? ? ? NW|? ? os ? DN ON| | | | |]; subst;
        try (exfalso; apply NW; cbn; tauto).
      apply oc_del. now rewrite (denotes_unique _ _ _ _ (denotes_terms I e ts) _ DN).
  Qed.

  Lemma atomic_cases x f : atomic_formula_term c x = Ok f ->
    (exists n args ts, x = SList (name_sx n :: args) /\ legal_name n /\ f = FPred n ts /\ args = flat_map term_text ts)
    \/ (exists args t u, x = SList (SAtom (TOp "=") :: args) /\ f = FEq t u).
  Proof.
    destruct x as [|[|[[| | |n| |o| |]|] args]]; cbn [atomic_formula_term]; try discriminate; intros H.
    - left. pose proof H as H'. apply (atomic_pred_says c C) in H as (ts & -> & E).
      exists n, args, ts. repeat split; auto; unfold atomic_pred in H';
      apply bind_Ok in H' as (ps & _ & H'); apply bind_Ok in H' as (rs & _ & H');
      apply bind_Ok in H' as (ts' & _ & H'); apply mk_pred_iff in H' as (_ & L & _); apply L.
    - right. destruct (String.eqb_spec o "=") as [->|]; [|discriminate].
      apply (atomic_eq_says c C) in H as (t & u & -> & _). eauto.
  Qed.
  Lemma atomic_leads x f : atomic_formula_term c x = Ok f -> leads x f /\ ops_if (CBin OAnd) f = None.
  Proof.
    intros H. apply atomic_cases in H as [(n & args & ts & -> & L & -> & E)|(args & t & u & -> & ->)].
    - split; [|reflexivity]. intros I e D. now apply pred_leads.
    - split; [|reflexivity]. intros I e D. split; intros H; inversion H.
  Qed.

  Lemma assign_op_word w k : assign_op w = Some k -> assign_word k = Some w /\ In w assign_words /\ metaclass (CFun k) = None.
  Proof.
    unfold assign_op.
    destruct (String.eqb_spec w "assign") as [->|_]; [intros [= <-]; cbn; tauto|].
    destruct (String.eqb_spec w "scale-up") as [->|_]; [intros [= <-]; cbn; tauto|].
    destruct (String.eqb_spec w "scale-down") as [->|_]; [intros [= <-]; cbn; tauto|].
    destruct (String.eqb_spec w "increase") as [->|_]; [intros [= <-]; cbn; tauto|].
    destruct (String.eqb_spec w "decrease") as [->|_]; [intros [= <-]; cbn; tauto|discriminate].
  Qed.
  Lemma f_head_text h f : f_head c h = Ok f ->
    exists n ts, f = FNumFun n ts /\ function_term n (flat_map term_text ts) h.
  Proof.
    intros H. destruct h as [[]|[|[[]|] l]]; cbn [f_head] in H; try discriminate.
    - apply mk_numfun_Ok in H. subst. eexists _, []. split; [reflexivity|]. right. auto.
    - apply bind_Ok in H as (ps & T & H). apply of_opt_Ok' in T. apply bind_Ok in H as (rs & R & H).
      apply bind_Ok in H as (ts & K & H). apply mk_numfun_Ok in H. subst. do 2 eexists. split; [reflexivity|].
      left. now rewrite (terms_text _ _ _ _ _ C T R K).
  Qed.

  Lemma p_effect_leads x f : toks_ok x -> plain_arithmetic x -> p_effect c x = Ok f ->
    leads x f /\ ops_if (CBin OAnd) f = None.
  Proof.
    intros T P H. destruct x as [|[|[[| | |w| |o| |]|] args]]; try (now apply atomic_leads).
    cbn [p_effect] in H. destruct (String.eqb_spec w "not") as [->|NW].
    { destruct args as [|x [|]]; try discriminate. apply bind_Ok in H as (g & G & H). injection H as <-.
      split; [|reflexivity]. apply atomic_cases in G as [(n & args & ts & -> & L & -> & E)|(args & t & u & -> & ->)].
      - intros I e D. now apply not_leads.
      - intros I e D. split; intros H; [inversion H|].
        inversion H as [|? ? ? ? NW| |w ? ? ? ? ? ? ? W| | | |]; subst; exfalso; apply NW; cbn; tauto. }
    destruct (assign_op w) as [k|] eqn:K; [|now apply atomic_leads].
    destruct args as [|h [|x [|]]]; try discriminate.
    apply bind_Ok in H as (f0 & F0 & H). apply bind_Ok in H as (g & G & H). injection H as <-.
    apply assign_op_word in K as (KW & KI & KM). apply f_head_text in F0 as (n & ts & -> & FT).
    unfold mk_binfun, mk_op. rewrite KM. cbn [raw_node]. split; [|reflexivity].
    assert (Tx : toks_ok x) by (eapply toks_in; [exact T|simpl; auto]).
    assert (Px : plain_arithmetic x) by (eapply plain_in; [exact P|simpl; auto]).
    intros I e D. destruct (f_exp_value I c x C Tx Px g G e) as (q & Aq & Vq). split; intros H.
    - inversion H as [| |k0 w0 n0 ts0 x0 D0 W0 O0| | | |]; subst. rewrite KW in W0. injection W0 as <-.
      eapply do_num; [exact KI|exact FT|apply denotes_terms|exact Aq|].
      eapply once_change; [|exact O0]. cbn. auto.
    - inversion H as [|? ? ? ? NE| |w0 h0 n0 l0 os0 x0 q0 D0 W0 FT0 DN0 AM0 O0| |? ? ? ? ? ? X|? ? ? ? ? ? ? X|]; subst;
        try (exfalso; cbn in KI; intuition discriminate).
      + exfalso. apply NE. apply in_or_app. now right.
      + assert (n0 = n /\ l0 = flat_map term_text ts) as [-> ->].
        { unfold function_term in *. destruct FT as [E1|[E1 E2]], FT0 as [E3|[E3 E4]]; rewrite E1 in E3; try discriminate E3;
          injection E3; intros; subst; auto. }
        apply (oc_num I e k w); auto. eapply once_change; [|exact O0]. cbn. split; auto. split; auto.
        split; [symmetry; eapply denotes_unique; [apply denotes_terms|exact DN0]|].
        rewrite Vq. eapply amount_unique; eauto.
  Qed.

  Lemma and_leads l fs :
    Forall2 (fun x f => leads x f /\ ops_if (CBin OAnd) f = None) l fs ->
    ForallOrdPairs (fun x1 x2 => ~ counts x1 \/ ~ counts x2
      \/ exists I e D, ~ (does I e x1 D <-> does I e x2 D)) l ->
    leads (SList (name_sx "and" :: l)) (mk_and fs).
  Proof.
    intros F P I e D. rewrite mk_and_sums.
    - assert (X : forall Ds, Forall2 (outcome I e) fs Ds <-> Forall2 (does I e) l Ds).
      { clear P. induction F as [|x f l fs [L _] F IH]; intros Ds.
        - split; intros G; inversion G; constructor.
        - split; intros G; inversion G; subst; constructor; try (now apply L); now apply IH. }
      unfold sums. split.
      + intros (Ds & G & T). apply (do_and I e l Ds); [now apply X|exact T].
      + intros H. inversion H as [|? ? ? ? NE| |? ? ? ? ? ? ? ? W|m Ds D0 G T| | |]; subst;
          try (exfalso; apply NE; cbn; tauto); try (exfalso; cbn in W; intuition discriminate).
        exists Ds. split; [now apply X|exact T].
    - clear P. induction F as [|x f l fs [_ N] F IH]; constructor; auto.
    - induction F as [|x f l fs [L _] F IH]; [constructor|]. inversion P as [|? ? P1 P2]; subst. constructor; auto.
      clear - L F P1. induction F as [|x2 f2 l fs [L2 _] F IH]; constructor; inversion P1 as [|? ? Q1 Q2]; subst; auto.
      intros E. destruct Q1 as [N|[N|(I' & e' & D' & N)]].
      + intros D1 D2 O1 O2. apply (does_simple I x N e); now apply L.
      + intros D1 D2 O1 O2. rewrite (outcome_eq I f f2) in O1, O2 by exact E.
        apply (does_simple I x2 N e); now apply L2.
      + exfalso. apply N. rewrite <- (L I' e' D'), <- (L2 I' e' D'). now apply outcome_eq.
  Qed.

  Lemma rep_in x l : no_repeated_effect (SList l) -> In x l -> no_repeated_effect x.
  Proof. intros N X m H. apply N. eapply inside_in; eauto. Qed.

  Lemma mapR_leads (p : sexp -> res form) l fs : mapR p l = Ok fs ->
    (forall x f, In x l -> p x = Ok f -> leads x f /\ ops_if (CBin OAnd) f = None) ->
    Forall2 (fun x f => leads x f /\ ops_if (CBin OAnd) f = None) l fs.
  Proof.
    intros M H. apply mapR_Ok in M. induction M as [|x f l fs E M IH]; constructor.
    - apply H; simpl; auto.
    - apply IH. intros y g Y. apply H. now right.
  Qed.

  Lemma cond_effect_leads x f : toks_ok x -> plain_arithmetic x -> no_repeated_effect x ->
    cond_effect c x = Ok f -> leads x f.
  Proof.
    intros T P N H. destruct x as [|[|[[| | |w| |o| |]|] args]]; try (now apply p_effect_leads).
    cbn [cond_effect] in H. destruct (String.eqb_spec w "and") as [->|]; [|now apply p_effect_leads].
    apply bind_Ok in H as (fs & M & H). injection H as <-. apply and_leads; [|apply N; constructor].
    eapply mapR_leads; [exact M|]. intros x f X. apply p_effect_leads; [eapply toks_in|eapply plain_in]; eauto; now right.
  Qed.

  Lemma effect_leads x : toks_ok x -> plain_arithmetic x -> no_repeated_effect x ->
    forall top f, effect c top x = Ok f -> leads x f /\ (top = false -> ops_if (CBin OAnd) f = None).
  Proof.
    induction x as [t|l IH] using sexp_ind'; intros T P N top f H; [discriminate|].
    assert (Q : forall x, In x l -> toks_ok x /\ plain_arithmetic x /\ no_repeated_effect x).
    { intros x X. split; [eapply toks_in|split; [eapply plain_in|eapply rep_in]]; eauto. }
    assert (PE : forall f, p_effect c (SList l) = Ok f -> leads (SList l) f /\ (top = false -> ops_if (CBin OAnd) f = None)).
    { intros g G. apply p_effect_leads in G as [G1 G2]; auto. }
    destruct l as [|[[]|] args]; try (now apply PE). inversion IH as [|? ? _ IHa]; subst. clear IH.
    assert (QA : forall x, In x args -> toks_ok x /\ plain_arithmetic x /\ no_repeated_effect x) by (intros; apply Q; now right).
    rewrite Forall_forall in IHa. cbn [effect] in H.
    destruct (top && String.eqb s "and") eqn:A.
    { apply andb_true_iff in A as [-> A]. apply String.eqb_eq in A as ->.
      apply bind_Ok in H as (fs & M & H). injection H as <-. split; [|discriminate].
      apply and_leads; [|apply N; constructor]. eapply mapR_leads; [exact M|]. intros x f X E.
      destruct (QA x X) as (Tx & Px & Nx). destruct (IHa x X Tx Px Nx false f E). auto. }
    destruct (String.eqb_spec s "forall") as [->|N1].
    { destruct args as [|[|vs] [|x [|]]]; try discriminate.
      apply bind_Ok in H as (tl & TL & H). apply bind_Ok in H as (g & G & H). apply bind_Ok in H as (vars & V & H).
      injection H as <-. split; [|reflexivity].
      destruct (QA x) as (Tx & Px & Nx); [simpl; auto|].
      destruct (IHa x (or_intror (or_introl eq_refl)) Tx Px Nx true g G) as [L _].
      intros I e D.
      assert (B : forall e', extends I (dedup var_eqb vars) e e' <-> bound I vs e e').
      { intros e'. rewrite extends_dedup. now apply (HV vs tl). }
      split; intros H.
      - inversion H as [| | | | |vs0 f0 F D0 F1 R E|]; subst.
        apply (do_forall I e vs x F); [|exact R|eapply everywhere_iff; [exact B|exact E]].
        intros e' X. apply L, F1. now apply B.
      - inversion H as [|? ? ? ? NE| |? ? ? ? ? ? ? ? W| | |vs0 y F D0 F1 R E|]; subst;
          try (exfalso; apply NE; cbn; tauto); try (exfalso; cbn in W; intuition discriminate).
        apply (oc_forall I e _ _ F); [|exact R|eapply everywhere_iff; [intros e'; symmetry; apply B|exact E]].
        intros e' X. apply L, F1. now apply B. }
    destruct (String.eqb_spec s "when") as [->|N2].
    { destruct args as [|x [|y [|]]]; try discriminate.
      apply bind_Ok in H as (f0 & G & H). apply bind_Ok in H as (g & K & H). injection H as <-. split; [|reflexivity].
      destruct (QA x) as (Tx & Px & _); [simpl; auto|]. destruct (QA y) as (Ty & Py & Ny); [simpl; auto|].
      pose proof (cond_effect_leads _ _ Ty Py Ny K) as L. intros I e D.
      pose proof (GM I x f0 Tx Px G e) as Mx. split; intros H.
      - inversion H as [| | | |c0 f1 E D0 O1 O2| |]; subst. apply (do_when I e x y E); [now apply L|].
        eapply only_if_iff; [exact Mx|exact O2].
      - inversion H as [|? ? ? ? NE| |? ? ? ? ? ? ? ? W| |x0 y0 E D0 O1 O2| |]; subst;
          try (exfalso; apply NE; cbn; tauto); try (exfalso; cbn in W; intuition discriminate).
        apply (oc_when I e f0 g E); [now apply L|]. eapply only_if_iff; [symmetry; exact Mx|exact O2]. }
    destruct (String.eqb_spec s "oneof") as [->|N3]; [|now apply PE].
    assert (Z : exists fs, mapR (effect c true) args = Ok fs /\ f = mk_bin OOneOf fs).
    { destruct args; [discriminate|]. apply bind_Ok in H as (fs & M & H). apply bind_Ok in H as ([] & _ & H).
      injection H as <-. eauto. }
    clear H. destruct Z as (fs & M & ->). split; [|reflexivity]. apply mapR_Ok in M.
    assert (F : Forall2 leads args fs).
    { assert (IHb : forall x, In x args -> forall f, effect c true x = Ok f -> leads x f).
      { intros x X g G. destruct (QA x X) as (Tx & Px & Nx). now destruct (IHa x X Tx Px Nx true g G). }
      clear - M IHb. induction M as [|x f l fs E M IH]; constructor; [apply IHb; simpl; auto|].
      apply IH. intros y Y. apply IHb. now right. }
    clear - F. intros I e D. cbn [mk_bin mk_op metaclass raw_node]. split; intros H.
    - inversion H as [| | | | | |ops g D0 G O]; subst.
      assert (X : exists y, In y args /\ does I e y D).
      { clear H. induction F as [|y h l fs L F IH]; [destruct G|]. destruct G as [->|G].
        - exists y. split; [now left|now apply L].
        - destruct (IH G) as (y' & Y & Y'). exists y'. split; [now right|auto]. }
      destruct X as (y & Y & Y'). eapply do_oneof; eauto.
    - inversion H as [|? ? ? ? NE| |? ? ? ? ? ? ? ? W| | | |l y D0 Y Y']; subst;
        try (exfalso; apply NE; cbn; tauto); try (exfalso; cbn in W; intuition discriminate).
      assert (X : exists g, In g fs /\ outcome I e g D).
      { clear H. induction F as [|y' h l fs L F IH]; [destruct Y|]. destruct Y as [->|Y].
        - exists h. split; [now left|now apply L].
        - destruct (IH Y) as (g & G & G'). exists g. split; [now right|auto]. }
      destruct X as (g & G & G'). eapply oc_oneof; eauto.
  Qed.
End Effects.

Lemma domain_leads st y f : st_wf st -> toks_ok y -> plain_arithmetic y -> no_repeated_effect y ->
  y <> SList [] -> emptyor_effect (domain_ctx st) y = Ok f -> leads y f.
Proof.
  intros W T P N NE H.
  assert (E : effect (domain_ctx st) true y = Ok f).
  { destruct y as [|[|]]; [exact H|contradiction|exact H]. }
  apply (effect_leads (domain_ctx st)) with (top := true); auto using st_wf_ctx.
  - intros vs tl vars Gv V I e e'. now apply bound_extends with tl.
  - intros. eapply domain_means; eauto.
Qed.
Lemma leads_eqb y f g : form_eqb f g = true -> leads y f -> leads y g.
Proof. intros E L I e D. rewrite <- (L I e D). symmetry. now apply outcome_eq. Qed.

(** precondition and effect of one and the same written action *)
Lemma parsed_effects s n l d :
  domain_text s n l -> parse_domain_fresh s = Ok d ->
  (forall a, In a (d_actions d) -> exists ps x y p f, In (action_text (a_name a) ps x y) l
     /\ a_pre a = Some p /\ a_eff a = Some f
     /\ (x <> SList [] -> plain_arithmetic x -> forall I, means I x p)
     /\ (y <> SList [] -> plain_arithmetic y -> no_repeated_effect y -> leads y f))
  /\ (forall an ps x y, In (action_text an ps x y) l -> exists a p f, In a (d_actions d) /\ a_name a = an
     /\ a_pre a = Some p /\ a_eff a = Some f
     /\ (x <> SList [] -> plain_arithmetic x -> forall I, means I x p)
     /\ (y <> SList [] -> plain_arithmetic y -> no_repeated_effect y -> leads y f)).
Proof.
  intros T H. unfold parse_domain_fresh in H. destruct (parse_domain s init_dstate) as [st' r] eqn:E.
  cbn [snd] in H. subst r. destruct (parsed_structures _ _ _ _ _ T E) as (A1 & A2 & _).
  assert (Z : forall st x p, toks_ok x -> st_wf st -> emptyor_pregd (domain_ctx st) x = Ok p ->
    x <> SList [] -> plain_arithmetic x -> forall I, means I x p).
  { intros st x p Tx W G N P I. eapply domain_means; eauto.
    destruct x as [|[|]]; [exact G|congruence|exact G]. }
  assert (TK : forall an ps x y, In (action_text an ps x y) l -> toks_ok x /\ toks_ok y).
  { intros an ps x y B. split; eapply section_toks; try eassumption; simpl; auto 10. }
  split.
  - intros a A. destruct (A1 a A) as (body & s1 & s2 & B & D & W).
    destruct (action_parts _ _ _ _ W D) as (ps & x & y & p & e & Eb & Ep & Ee & W2 & Gp & Ge).
    rewrite Eb in B. destruct (TK _ _ _ _ B) as [Tx Ty]. exists ps, x, y, p, e.
    repeat (split; [auto; fail|]). split; [eapply Z; eauto|]. intros N P R. eapply domain_leads; eauto.
  - intros an ps x y B. destruct (A2 _ B) as (s1 & s2 & a & D & W & M). destruct (TK _ _ _ _ B) as [Tx Ty].
    destruct (action_parts _ _ _ _ W D) as (ps' & x' & y' & p & e & Eb & Ep & Ee & W2 & Gp & Ge).
    injection Eb as -> -> <- <-. apply memb_In in M as (b & Ib & Eb). unfold action_eqb in Eb.
    rewrite !andb_true_iff in Eb. destruct Eb as (((E1 & _) & E3) & E4). apply String.eqb_eq in E1.
    rewrite Ep in E3. destruct (a_pre b) as [q|] eqn:Pb; [|discriminate]. cbn [option_eqb] in E3.
    rewrite Ee in E4. destruct (a_eff b) as [g|] eqn:Fb; [|discriminate]. cbn [option_eqb] in E4.
    exists b, q, g. repeat (split; [auto; fail|]). split.
    + intros N P I. eapply means_eqb; [exact E3|]. eapply Z; eauto.
    + intros N P R. eapply leads_eqb; [exact E4|]. eapply domain_leads; eauto.
Qed.
