(** The value of a parsed metric (C47). *)
From Coq Require Import String List Bool Arith Lia ZArith QArith.
From Verif Require Import Py Names Reqs Logic Validation Core Lexer TypedList UpdateTags Parser.
From Verif Require Import Sem Spec Spec_Core Spec_Parse Spec_Derived Spec_Numbers Spec_Meaning Spec_Metric.
From Verif Require Import Py_facts Logic_facts Ops_facts Built_facts Names_facts CoreEq_facts Inst_facts
  Parse_facts GD_facts NF_facts Derived_facts Domain_facts Derived_facts2 Feature_facts Action_facts
  Problem_facts Format_facts Number_facts NumberText_facts Meaning_facts MeaningText_facts.
Import ListNotations.
Open Scope string_scope.
Open Scope list_scope.

(** the expression with numbers in the place of texts *)
Fixpoint numbered (f : form) : form :=
  match f with
  | FNumVal (NStr s) => match num_literal s with Ok v => FNumVal v | Err _ => f end
  | FBinFun k ops => FBinFun k (map numbered ops)
  | _ => f
  end.
(** what metric_f_exp builds *)
Inductive met : form -> Prop :=
| met_fun n ts : met (FNumFun n ts)
| met_num s : met (FNumVal (NStr s))
| met_op k ops : Forall met ops -> met (FBinFun k ops).
Section MetInd.
  Variable P : form -> Prop.
  Hypothesis H1 : forall n ts, P (FNumFun n ts).
  Hypothesis H2 : forall s, P (FNumVal (NStr s)).
  Hypothesis H3 : forall k ops, Forall met ops -> Forall P ops -> P (FBinFun k ops).
  Fixpoint met_ind' f (M : met f) : P f :=
    match M with
    | met_fun n ts => H1 n ts
    | met_num s => H2 s
    | met_op k ops F => H3 k ops F
        ((fix go l (F : Forall met l) : Forall P l :=
            match F with Forall_nil _ => Forall_nil P | Forall_cons x m r => Forall_cons x (met_ind' x m) (go _ r) end) ops F)
    end.
End MetInd.

Lemma numbered_eqb f : met f -> forall g, met g -> form_eqb f g = true -> form_eqb (numbered f) (numbered g) = true.
Proof.
  intros M. induction M as [n ts|s|k ops F IH] using met_ind'; intros g N E; destruct N as [m us|t|j os G]; try discriminate.
  - exact E.
  - cbn in E. apply String.eqb_eq in E. subst t. apply (eqv_refl _ form_eqb_equiv).
  - cbn in E. apply andb_true_iff in E as [E1 E2]. cbn [numbered form_eqb]. rewrite E1. cbn [andb].
    clear - IH G E2. revert os G E2. induction IH as [|f fs H IH IHs]; intros [|g gs] G E; cbn in *; try discriminate; auto.
    apply andb_true_iff in E as [E1 E2]. inversion G; subst. rewrite (H g) by auto. cbn. auto.
Qed.
Lemma numbered_NoDup fs : Forall met fs -> NoDupE form_eqb (map numbered fs) -> NoDupE form_eqb fs.
Proof.
  induction 1 as [|f fs M F IH]; cbn; intros N; constructor; inversion N as [|? ? N1 N2]; subst; auto.
  destruct (memb form_eqb f fs) eqn:E; auto. rewrite <- N1. symmetry.
  apply memb_In in E as (g & I & E). apply memb_In. exists (numbered g). split; [now apply in_map|].
  rewrite Forall_forall in F. apply numbered_eqb; auto.
Qed.
Lemma numbered_leaves k f : met f -> leaves (CFun k) (numbered f) = map numbered (leaves (CFun k) f).
Proof.
  intros M. induction M as [n ts|s|j ops F IH] using met_ind'; cbn [leaves numbered map].
  - reflexivity.
  - destruct (num_literal s); reflexivity.
  - destruct (bfun_eqb k j); [|reflexivity].
    induction IH as [|f fs H IH IHs]; [reflexivity|]. inversion F; subst. cbn [map flat_map]. rewrite map_app. f_equal; auto.
Qed.
Lemma numbered_leaves_all k fs : Forall met fs ->
  flat_map (leaves (CFun k)) (map numbered fs) = map numbered (flat_map (leaves (CFun k)) fs).
Proof.
  induction 1 as [|f fs M F IH]; [reflexivity|]. cbn [map flat_map]. rewrite map_app, <- IH. f_equal. now apply numbered_leaves.
Qed.
Lemma met_leaves k f : met f -> Forall met (leaves (CFun k) f).
Proof.
  intros M. induction M as [n ts|s|j ops F IH] using met_ind'; cbn [leaves]; try (repeat constructor; fail).
  destruct (bfun_eqb k j); [|repeat constructor; exact F]. now apply Forall_flat_map.
Qed.
Lemma distinct_op k ops : In k [BPlus; BTimes; BDivide] -> 2 <= length ops ->
  NoDupE form_eqb (flat_map (leaves (CFun k)) ops) -> mk_binfun k ops = FBinFun k (flat_map (leaves (CFun k)) ops).
Proof.
  intros K N D. unfold mk_binfun, mk_op.
  assert (M : metaclass (CFun k) = Some false) by (destruct K as [<-|[<-|[<-|[]]]]; reflexivity).
  rewrite M, simplify_spec. cbv iota. destruct ops as [|a [|b ops]]; cbn in N; try lia.
  rewrite (dedup_id _ form_eqb_equiv _ D). destruct (flat_map _ _) as [|u [|v w]]; reflexivity.
Qed.

Lemma names_terms ns : terms (map name_sx ns) = Some (map PConst ns).
Proof. induction ns; cbn; [reflexivity|]. now rewrite IHns. Qed.
Lemma basic_head x f : basic_function_term x = Ok f -> f_head problem_ctx x = Ok f /\ met f.
Proof.
  destruct x as [[]|[|[[]|] args]]; cbn [basic_function_term f_head]; try discriminate; intros H.
  - split; auto. apply mk_numfun_Ok in H. subst. constructor.
  - apply bind_Ok in H as (ns & W & H). apply of_opt_Ok' in W. apply mapO_word_inv in W. subst.
    apply bind_Ok in H as (ts & M & H). split; [|apply mk_numfun_Ok in H; subst; constructor].
    rewrite names_terms. cbn [of_opt bind].
    assert (R : mapR (resolve problem_ctx) (map PConst ns) = Ok (map inl ts)).
    { clear - M. revert ts M. induction ns as [|n ns IH]; intros ts M; cbn in *; [now injection M as <-|].
      apply bind_Ok in M as (t & E & M). apply bind_Ok in M as (us & M & X). injection X as <-.
      rewrite E. cbn. now rewrite (IH us M). }
    rewrite R. cbn [bind].
    assert (K : mapR (constant_or_variable problem_ctx) (map inl ts) = Ok ts).
    { clear. induction ts as [|t ts IH]; [reflexivity|]. cbn. now rewrite IH. }
    now rewrite K.
Qed.

Section StandsInd.
  Variable P : form -> form -> Prop.
  Hypothesis H1 : forall s v q r, numeral s q -> num_value v = Some r -> (r == q)%Q -> P (FNumVal (NStr s)) (FNumVal v).
  Hypothesis H2 : forall n ts, P (FNumFun n ts) (FNumFun n ts).
  Hypothesis H3 : forall k l l', Forall2 stands_for l l' -> Forall2 P l l' -> P (FBinFun k l) (FBinFun k l').
  Fixpoint stands_ind' f g (M : stands_for f g) : P f g :=
    match M with
    | sf_num s v q r N V E => H1 s v q r N V E
    | sf_fun n ts => H2 n ts
    | sf_op k l l' F => H3 k l l' F
        ((fix go l l' (F : Forall2 stands_for l l') : Forall2 P l l' :=
            match F with
            | Forall2_nil _ => Forall2_nil P
            | Forall2_cons x y m r => Forall2_cons x y (stands_ind' x y m) (go _ _ r) end) l l' F)
    end.
End StandsInd.
Lemma stands_value I e f g : stands_for f g -> forall h, stands_for f h -> (value I e g == value I e h)%Q.
Proof.
  intros M. induction M as [s v q r N V E|n ts|k l l' F IH] using stands_ind'; intros h H.
  - inversion H as [s' v' q' r' N' V' E'| |]; subst. cbn. unfold num_q. rewrite V, V', E, E'.
    exact (numeral_unique _ _ _ N N').
  - inversion H; subst. reflexivity.
  - inversion H as [| |k' m m' G]; subst.
    assert (X : Forall2 (fun a b => value I e a == value I e b)%Q l' m').
    { clear - IH G. revert m' G. induction IH as [|f g fs gs A IH IHs]; intros m' G; inversion G; subst; constructor; auto. }
    clear - X. destruct k; try reflexivity; cbn [value].
    + destruct X as [|a b l m A [|a' b' l1 m1 A' X]]; [reflexivity|now rewrite A|].
      assert (Y : (value I e a - value I e a' == value I e b - value I e b')%Q) by now rewrite A, A'.
      cbn [fold_left]. revert Y. generalize (value I e a - value I e a')%Q (value I e b - value I e b')%Q.
      induction X as [|c d l0 m0 C X IH]; cbn; intros; auto. apply IH. now rewrite Y, C.
    + induction X as [|a b l m A X IH]; cbn; [reflexivity|now rewrite A, IH].
    + induction X as [|a b l m A X IH]; cbn; [reflexivity|now rewrite A, IH].
    + destruct X as [|a b l m A X]; [reflexivity|].
      revert A. generalize (value I e a) (value I e b).
      induction X as [|c d l0 m0 C X IH]; cbn; intros; auto. apply IH. now rewrite A, C.
Qed.
Definition stands f := stands_for f (numbered f).
Lemma stands_ops k ops : stands (FBinFun k ops) -> Forall stands ops.
Proof.
  unfold stands. cbn. intros H. inversion H as [| |? ? ? F]; subst. clear H.
  induction ops as [|f fs IH]; constructor; inversion F; subst; auto.
Qed.
Lemma ops_stands k ops : Forall stands ops -> stands (FBinFun k ops).
Proof. intros F. constructor. induction F; constructor; auto. Qed.
Lemma stands_leaves k f : met f -> stands f -> Forall stands (leaves (CFun k) f).
Proof.
  intros M. induction M as [n ts|s|j ops F IH] using met_ind'; intros X; cbn [leaves]; try (repeat constructor; exact X).
  destruct (bfun_eqb k j); [|constructor; [exact X|constructor]]. apply stands_ops in X. clear F.
  apply Forall_flat_map. induction IH; constructor; inversion X; subst; auto.
Qed.
Lemma metric_numbered x : numerals_only x -> toks_ok x -> nothing_repeated x ->
  forall f, metric_f_exp x = Ok f -> f_exp problem_ctx x = Ok (numbered f) /\ met f /\ stands f.
Proof.
  assert (B : forall y g, basic_function_term y = Ok g -> f_head problem_ctx y = Ok (numbered g) /\ met g /\ stands g).
  { intros y g H. destruct (basic_head y g H) as [E M]. split; [|split; auto].
    2:{ destruct y as [[]|[|[[]|] l]]; cbn in H; try discriminate.
        - apply mk_numfun_Ok in H. subst. constructor.
        - apply bind_Ok in H as (? & _ & H). apply bind_Ok in H as (? & _ & H). apply mk_numfun_Ok in H. subst. constructor. }
    destruct y as [[]|[|[[]|] l]]; cbn in H; try discriminate.
    - apply mk_numfun_Ok in H. subst. exact E.
    - apply bind_Ok in H as (? & _ & H). apply bind_Ok in H as (? & _ & H). apply mk_numfun_Ok in H. subst. exact E. }
  induction x as [t|l IH] using sexp_ind'; intros NL T R f H.
  - destruct t; try (cbn [metric_f_exp f_exp] in *; now apply B). cbn in *. injection H as <-. 
    destruct (NL s) as [q Q]; [constructor|]. destruct (numeral_literal _ _ Q) as (v & r & L & V & E).
    cbn. unfold stands. cbn. rewrite L. split; [reflexivity|]. split; [constructor|]. econstructor; eauto.
  - destruct l as [|[[]|] l]; try (cbn [metric_f_exp f_exp] in *; now apply B). cbn [metric_f_exp f_exp] in *.
    destruct (arith_op s (length l)) as [k|] eqn:A; [|discriminate].
    apply bind_Ok in H as (ops & M & H). injection H as <-.
    assert (G : mapR (f_exp problem_ctx) l = Ok (map numbered ops) /\ Forall met ops /\ Forall stands ops).
    { inversion IH as [|? ? _ F]; subst. clear IH.
      assert (X : forall x, In x l -> numerals_only x /\ toks_ok x /\ nothing_repeated x).
      { intros x X. split; [|split].
        - intros s0 N. apply NL. apply number_in_list. exists x. split; [now right|auto].
        - eapply toks_in; eauto. now right.
        - eapply repeated_in; eauto. now right. }
      clear NL T R A. revert ops M. induction F as [|x l Hx F IHF]; intros ops M; cbn in M.
      - injection M as <-. repeat split; constructor.
      - apply bind_Ok in M as (g & G & M). apply bind_Ok in M as (gs & Gs & M). injection M as <-.
        destruct (X x (or_introl eq_refl)) as (X1 & X2 & X3). destruct (Hx X1 X2 X3 g G) as (E1 & E2 & E5).
        destruct (IHF (fun y Y => X y (or_intror Y)) gs Gs) as (E3 & E4 & E6).
        split; [|split; now constructor]. cbn. now rewrite E1, E3. }
    destruct G as (G & MO & SO). rewrite G. cbn [bind].
    assert (FS : Forall2 shape l (map numbered ops)).
    { eapply mapR_shapes; [exact G|]. apply Forall_forall. intros x X g E.
      apply (f_exp_shape problem_ctx); auto using problem_ctx_ok.
      - eapply toks_in; [exact T|now right].
      - eapply repeated_in; [exact R|now right]. }
    pose proof (arith_op_kind _ _ _ A) as Kd.
    pose proof (Forall2_length _ _ _ FS) as Ln. rewrite map_length in Ln.
    destruct (arith_op_of _ _ _ A) as [K|(-> & -> & N)].
    + assert (KI : In k [BPlus; BTimes; BDivide]) by (destruct K as [(_ & ->)|[(_ & ->)|(_ & ->)]]; cbn; auto).
      assert (L2 : 2 <= length ops).
      { destruct Kd as [(_ & _ & L)|[(_ & _ & L)|[(_ & _ & L)|(-> & _ & L)]]]; try lia.
        destruct K as [(K & _)|[(K & _)|(K & _)]]; discriminate. }
      pose proof (arith_distinct _ _ _ _ K R FS) as D.
      assert (ML : Forall met (flat_map (leaves (CFun k)) ops)).
      { apply Forall_flat_map. eapply Forall_impl; [|exact MO]. intros. now apply met_leaves. }
      assert (D' : NoDupE form_eqb (flat_map (leaves (CFun k)) ops)).
      { apply numbered_NoDup; auto. now rewrite <- numbered_leaves_all. }
      rewrite (distinct_op k ops KI L2 D').
      rewrite (distinct_op k (map numbered ops) KI) by (rewrite ?map_length; auto).
      split; [cbn [numbered]; now rewrite numbered_leaves_all|]. split; [now constructor|].
      apply ops_stands, Forall_flat_map. rewrite Forall_forall in *. intros g X. apply stands_leaves; auto.
    + destruct ops as [|g [|]]; cbn in Ln; try lia. split; [reflexivity|]. split; [now constructor|now apply ops_stands].
Qed.


Lemma metric_means x f : numerals_only x -> toks_ok x -> plain_arithmetic x -> metric_f_exp x = Ok f ->
  (exists g, stands_for f g)
  /\ forall g, stands_for f g -> forall I e, exists q, amount I e x q /\ (value I e g == q)%Q.
Proof.
  intros N T P H. destruct (metric_numbered x N T (proj1 P) f H) as (E & M & X). split; [eexists; exact X|].
  intros g G I e. destruct (f_exp_value I problem_ctx x problem_ctx_ok T P _ E e) as (q & A & V).
  exists q. split; auto. rewrite <- V. exact (stands_value I e f _ G _ X).
Qed.
Lemma parsed_metric s n dn l p m : problem_text s n dn l -> parse_problem s = Ok p -> p_metric p = Some m ->
  exists x, In (section_sx ":metric" [name_sx (me_opt m); x]) l
    /\ (numerals_only x -> plain_arithmetic x ->
        (exists g, stands_for (me_expr m) g)
        /\ forall g, stands_for (me_expr m) g -> forall I e, exists q, amount I e x q /\ (value I e g == q)%Q).
Proof.
  intros T P PM. pose proof P as P'. apply parse_problem_inv in P' as (n' & dn' & l' & T' & R).
  destruct (problem_text_unique _ _ _ _ _ _ _ T T') as (<- & <- & <-).
  apply problem_rule_inv in R as (o1 & o2 & inits & g & o5 & rs & os & init & goal & mo & -> & _ & Os & I & G & E & M).
  assert (X : mo = Some m) by (apply mk_problem_fields in M as (_ & _ & Mm & _); congruence). subst mo.
  destruct o5 as [b|]; cbn in E; [|discriminate]. apply bind_Ok in E as (m' & E & X). injection X as ->.
  assert (IN : In (section_sx ":metric" b) (problem_sections o1 o2 inits g (Some b))).
  { unfold problem_sections. rewrite !in_app_iff. right; right. right; right. now left. }
  assert (TOK : forall x, In x b -> toks_ok x).
  { intros x X m0 N. eapply read_text_tok; [exact T|left; reflexivity|].
    apply number_in_list. exists (section_sx ":metric" b). split; [do 3 right; exact IN|].
    apply number_in_list. exists x. split; [now right|exact N]. }
  unfold metric_spec in E. destruct b as [|[[]|] [|x [|]]]; try discriminate.
  destruct (memb _ _ _); [|discriminate]. apply bind_Ok in E as (f & F & E).
  apply mk_metric_Ok in E as [-> _]. exists x. split; [exact IN|].
  intros N Pl. cbn [me_expr]. apply metric_means; auto. apply TOK. right; now left.
Qed.
