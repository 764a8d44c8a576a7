(** The initial state of a parsed problem (C51). *)
From Coq Require Import String List Bool Arith QArith.
From Verif Require Import Py Names Reqs Logic Validation Core Lexer TypedList Parser.
From Verif Require Import Spec_Core Spec_Parse Spec_Features Spec_Numbers Spec_Declared Spec_Init.
From Verif Require Import Py_facts Logic_facts Built_facts Names_facts Parse_facts GD_facts Derived_facts Domain_facts Derived_facts2 Feature_facts Problem_facts
  Number_facts NumberText_facts Meaning_facts Format_facts MeaningText_facts Declared_facts.
Import ListNotations.
Open Scope string_scope.
Open Scope list_scope.

Section Init.
  Variable l : list sexp.
  Variable objs : list (string * const).
  Hypothesis found : forall n k, dict_get String.eqb n objs = Some k -> fst k = n /\ declares_name ":objects" l n (snd k).
  Hypothesis not_found : forall n, dict_get String.eqb n objs = None -> forall h, ~ declares_name ":objects" l n h.

  Lemma name_object n t :
    match dict_get String.eqb n objs with Some k => Ok (const_term k) | None => mk_const n None end = Ok t ->
    names_object l n t.
  Proof.
    destruct (dict_get String.eqb n objs) as [k|] eqn:D; intros H.
    - injection H as <-. destruct (found n k D) as [E X]. destruct k as [k g]. cbn in *. subst k. exists g. auto.
    - apply mk_const_Ok in H as (-> & _). exists None. split; auto. right. split; auto.
      intros (h & X). now apply (not_found n D h).
  Qed.
  Lemma atom_init n args f : atomic_formula_name objs (SList (SAtom (TWord n) :: args)) = Ok f ->
    exists ns ts, args = map name_sx ns /\ f = FPred n ts /\ Forall2 (names_object l) ns ts.
  Proof.
    intros H. cbn [atomic_formula_name] in H. apply bind_Ok in H as (ns & W & H). apply of_opt_Ok' in W.
    apply bind_Ok in H as (ts & M & H). apply mk_pred_Ok in H. subst. apply mapO_word_inv in W. subst.
    exists ns, ts. split; [reflexivity|]. split; [reflexivity|]. apply mapR_Ok in M.
    clear -M found not_found. induction M; constructor; auto using name_object.
  Qed.
  Lemma basic_init x f : basic_function_term x = Ok f ->
    exists n ns, f = FNumFun n (map (fun m => TConst m None) ns)
      /\ (x = SList (name_sx n :: map name_sx ns) \/ (x = name_sx n /\ ns = [])).
  Proof.
    destruct x as [[]|[|[[]|] args]]; cbn; try discriminate; intros H.
    - apply mk_numfun_Ok in H. subst. exists s, []. auto.
    - apply bind_Ok in H as (ns & W & H). apply of_opt_Ok' in W. apply mapO_word_inv in W. subst.
      apply bind_Ok in H as (ts & M & H). apply mk_numfun_Ok in H. subst. exists s, ns. split; [|now left].
      f_equal. apply mapR_Ok in M. clear -M. induction M as [|n t ns ts E M IH]; [reflexivity|].
      apply mk_const_Ok in E as (-> & _). cbn. now rewrite IH.
  Qed.
  Lemma init_read x f : toks_ok x -> init_el objs x = Ok f -> init_says l x f.
  Proof.
    intros T H. unfold init_el in H. destruct x as [|[|[[| | |w| |o| |]|] args]]; try discriminate.
    - destruct (String.eqb_spec w "not") as [->|N].
      + destruct args as [|y [|]]; try discriminate. apply bind_Ok in H as (g & G & H). injection H as <-.
        destruct y as [|[|[[]|] args]]; try discriminate. apply atom_init in G as (ns & ts & -> & -> & F).
        now apply IS_not.
      + apply atom_init in H as (ns & ts & -> & -> & F). now apply IS_atom.
    - destruct args as [|f0 [|[[| | | |m| | |]|] [|]]]; try discriminate.
      destruct (String.eqb_spec o "=") as [->|]; [|discriminate].
      apply bind_Ok in H as (g & G & H). apply bind_Ok in H as (v & V & H).
      assert (Tm : num_tok m). { apply T. apply number_in_list. exists (SAtom (TNum m)). simpl. split; [auto|constructor]. }
      destruct (literal_numeral _ _ Tm V) as (q & r & Q & R & E).
      apply basic_init in G as (n & ns & -> & X). injection H as <-.
      change (mk_binfun BEqual ?a) with (FBinFun BEqual a).
      destruct X as [->|[-> ->]]; [eapply IS_value; eauto|eapply IS_value0; eauto].
  Qed.
  Lemma inits_read xs fs : (forall x, In x xs -> toks_ok x) -> mapR (init_el objs) xs = Ok fs -> Forall2 (init_says l) xs fs.
  Proof.
    intros T M. apply mapR_Ok in M. revert T. induction M as [|x f xs fs E M IH]; intros T; constructor.
    - eapply init_read; eauto. apply T. now left.
    - apply IH. intros. apply T. now right.
  Qed.
End Init.

Lemma dict_get_absent {B} (o : list (string * B)) n : dict_get String.eqb n o = None -> forall b, ~ In (n, b) o.
Proof.
  induction o as [|(a & c) o IH]; intros H b X; [destruct X|]. cbn in H.
  destruct (String.eqb_spec a n) as [->|N]; [rewrite ?String.eqb_refl in H; discriminate|].
  destruct X as [E|X]; [inversion E; congruence|]. destruct (String.eqb n a); try discriminate. now apply (IH H b).
Qed.
Lemma parsed_init s n dn l p : problem_text s n dn l -> parse_problem s = Ok p ->
  exists rest inits tail,
    l = rest ++ section_sx ":init" inits :: tail
    /\ (forall f, In f (p_init p) -> exists x, In x inits /\ init_says l x f)
    /\ (forall x, In x inits -> exists f f', init_says l x f /\ In f' (p_init p) /\ form_eqb f f' = true)
    /\ NoDupE form_eqb (p_init p).
Proof.
  intros T P. pose proof (declared_problem s n dn l p T P) as D.
  pose proof P as P'. apply parse_problem_inv in P' as (n' & dn' & l' & T' & R).
  destruct (problem_text_unique _ _ _ _ _ _ _ T T') as (<- & <- & <-).
  apply problem_rule_inv in R as (o1 & o2 & inits & g & o5 & rs & os & init & goal & m & -> & _ & Os & I & G & _ & M).
  apply mk_problem_fields in M as (Mi & _ & _ & Mo & _).
  exists (opt_section ":requirements" o1 ++ opt_section ":objects" o2), inits, (section_sx ":goal" [g] :: opt_section ":metric" o5).
  split; [unfold problem_sections; now rewrite app_assoc|].
  set (l := problem_sections o1 o2 inits g o5) in *.
  set (objs := match os with Some d => d | None => [] end) in *.
  assert (OB : match os with Some d => map snd d | None => [] end = map snd objs) by (subst objs; now destruct os).
  rewrite OB in Mo.
  assert (K : NoDup (map fst objs) /\ Forall (fun kv : string * const => fst (snd kv) = fst kv) objs).
  { subst objs. destruct os as [d|]; [|split; constructor]. destruct o2 as [ol|]; cbn in Os; [|discriminate].
    apply bind_Ok in Os as (d' & O & X). injection X as ->. apply objects_ok in O as [N F]. split; auto.
    eapply Forall_impl; [|exact F]. now intros kv [X _]. }
  destruct K as [KN KF].
  assert (MO : p_objects p = map snd objs) by (rewrite Mo; now apply objects_dedup).
  assert (F1 : forall n k, dict_get String.eqb n objs = Some k -> fst k = n /\ declares_name ":objects" l n (snd k)).
  { intros k c H. apply dict_get_In in H as (k' & H & E). apply String.eqb_eq in E. subst k'.
    rewrite Forall_forall in KF. pose proof (KF _ H) as X. cbn in X. subst k. split; auto.
    apply (pd_objects _ _ _ _ D). rewrite MO. apply (in_map snd) in H. now destruct c. }
  assert (F2 : forall n, dict_get String.eqb n objs = None -> forall h, ~ declares_name ":objects" l n h).
  { intros k H h X. apply (pd_objects _ _ _ _ D) in X. rewrite MO in X. apply in_map_iff in X as ((k' & c) & E & X).
    cbn in E. subst c. rewrite Forall_forall in KF. pose proof (KF _ X) as Y. cbn in Y. subst k'.
    now apply (dict_get_absent _ _ H _ X). }
  assert (TOK : forall x, In x inits -> toks_ok x).
  { intros x X k N. eapply read_text_tok; [exact T|left; reflexivity|].
    apply number_in_list. exists (section_sx ":init" inits). split.
    - do 3 right. subst l. unfold problem_sections. rewrite app_assoc. apply in_or_app. right. now left.
    - apply number_in_list. exists x. split; [now right|exact N]. }
  pose proof (inits_read l objs F1 F2 inits init TOK I) as FF.
  split; [|split].
  - intros f H. rewrite Mi in H. apply dedup_In in H.
    clearbody l. clear -FF H. induction FF as [|y f' i j E F IH]; [destruct H|].
    destruct H as [->|H]; [exists y; split; [now left|exact E]|]. destruct (IH H) as (x & X & Y). exists x. split; [now right|auto].
  - intros x X. assert (Y : exists f, init_says l x f /\ In f init).
    { clearbody l. clear -FF X. induction FF as [|y f' i j E F IH]; [destruct X|].
      destruct X as [->|X]; [exists f'; split; [exact E|now left]|]. destruct (IH X) as (f & A & B). exists f. split; [auto|now right]. }
    destruct Y as (f & A & B). exists f.
    assert (Mb : memb form_eqb f (p_init p) = true).
    { rewrite Mi, memb_dedup by apply form_eqb_equiv. apply memb_In. exists f. split; auto.
      apply (eqv_refl _ form_eqb_equiv). }
    apply memb_In in Mb as (f' & I' & E'). exists f'. auto.
  - rewrite Mi. apply dedup_NoDupE, form_eqb_equiv.
Qed.
