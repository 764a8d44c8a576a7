(** The text of a domain does not depend on the iteration order of its sets if no quantifier has
    two variables. *)
From Coq Require Import String List Bool Arith ZArith Lia Permutation.
From Verif Require Import Py Names Reqs Logic Built Validation Core Lexer Show Parser.
From Verif Require Import Spec Spec_Core Spec_Parse Spec_Print Spec_Text Spec_Domain Spec_Problem Spec_Same Spec_Orders.
From Verif Require Import Py_facts Names_facts Logic_facts Built_facts NF_facts Order_facts CoreEq_facts Core_facts Types_facts ShowSame_facts
  Domain_facts Problem_facts Derived_facts Action_facts FormText_facts ProblemText_facts DomainText_facts DomainRead_facts Same_facts
  Loose_facts Format_facts FormatDomain_facts Twice_facts Orders_facts OrdersDomain_facts.
Import ListNotations.
Open Scope string_scope.
Open Scope list_scope.

Lemma one_type_order v w : var_order v w -> one_type v -> v = w.
Proof.
  intros [N P] O. destruct v as [n gs], w as [n' hs]. unfold one_type in O. cbn in *. subst n'. f_equal.
  destruct gs as [|g [|]]; cbn in O; try lia; [now apply Permutation_nil in P|]. now apply Permutation_length_1_inv in P.
Qed.
Lemma single_order vs ws : set_order var_order vs ws -> single vs -> vs = ws.
Proof.
  intros (k & F & P) [L O]. destruct vs as [|v [|]]; cbn in L; try lia; inversion F as [|? w ? k' Q F']; subst.
  - now apply Permutation_nil in P.
  - inversion F'; subst. apply Permutation_length_1_inv in P. subst. inversion O; subst. f_equal. now apply one_type_order.
Qed.
Lemma order_show f : forall g, form_order f g -> settled f -> show_form f = show_form g.
Proof.
  assert (T : forall n us ts, Forall2 term_order us ts -> show_atom n us = show_atom n ts).
  { intros n us ts F. apply show_atom_same. now rewrite String.eqb_refl, terms_order_eqb. }
  assert (X : forall l m, Forall (fun f => forall g, form_order f g -> settled f -> show_form f = show_form g) l ->
    Forall2 form_order l m -> Forall settled l -> map show_form l = map show_form m).
  { intros l m H F. induction F; auto. intros N. inversion N; inversion H; subst. cbn. f_equal; auto. }
  induction f using form_ind'; intros g0 O; inversion O; subst; cbn [show_form settled]; rewrite ?fold_and_Forall; auto.
  - intros _. assert (Y : forall t u, term_order t u -> show_term t = show_term u).
    { intros [n g|v] [n' g'|w]; cbn; try contradiction; intros [-> _]; auto. }
    now rewrite (Y l l'), (Y r r').
  - intros N. now rewrite (X ops m).
  - intros N. now rewrite (X ops m).
  - intros N. now rewrite (IHf g).
  - intros [S N]. rewrite (IHf g) by auto. match goal with A : set_order _ _ _ |- _ => now rewrite (single_order _ _ A S) end.
  - intros [N1 N2]. rewrite (IHf1 c') by auto. match goal with A : form_order f2 ?g |- _ => now rewrite (IHf2 g) by auto end.
  - intros [S N]. rewrite (IHf g) by auto. match goal with A : set_order _ _ _ |- _ => now rewrite (single_order _ _ A S) end.
Qed.
Lemma order_some ts us : Forall2 term_order ts us -> Forall some_var ts -> Forall some_var us.
Proof.
  induction 1 as [|t u ts us Q F IH]; auto. intros S. inversion S as [|? ? (v & -> & N) S']; subst. constructor; auto.
  destruct u as [|w]; [contradiction|]. exists w. split; auto. destruct Q as [_ P]. now apply (Permutation_NoDup P).
Qed.
Lemma order_typed_vars ts us : Forall2 term_order ts us -> Forall Spec_Same.typed_var ts -> ts = us.
Proof.
  induction 1 as [|t u ts us Q F IH]; auto. intros S. inversion S as [|? ? (v & -> & N) S']; subst. f_equal; auto.
  destruct u as [|w]; [contradiction|]. f_equal. now apply one_type_order.
Qed.

Theorem order_text d d' : domain_built d -> NoDupE atom_eqb (map fst (d_functions d)) -> settled_domain d -> domain_order d d' -> show_domain d = show_domain d'.
Proof.
  intros B F [S1 S2 S3 S4 S5] O. pose proof (order_built_domain d d' B O) as B'. pose proof (order_functions _ _ O F) as F'.
  assert (DD : dicts_ok d /\ dicts_ok d').
  { split; [destruct (domain_built_types d B) as (N & _)|destruct (domain_built_types d' B') as (N & _)]; split; auto; now apply NoDupE_string. }
  destruct DD as [DD DD']. pose proof (order_eqb_domain d d' DD DD' O) as E.
  assert (W1 : forall p, In p (d_predicates d') -> Forall some_var (snd p)).
  { intros p I. destruct (set_order_In _ _ _ _ (do_predicates _ _ O) I) as (q & Q1 & _ & Q2). eapply order_some; eauto. }
  assert (W2 : forall f, In f (d_functions d') -> Forall some_var (snd (fst f))).
  { intros f I. destruct (F2_In_r _ _ _ _ (do_functions _ _ O) I) as (q & Q1 & (_ & Q2) & _). eapply order_some; eauto. }
  destruct (domain_sets d B) as (RA & CA & PRA & _), (domain_sets d' B') as (RB & CB & PRB & _).
  unfold domain_eqb in E. apply andb_true_iff in E as [E E8]. apply andb_true_iff in E as [E E7].
  apply andb_true_iff in E as [E E6]. apply andb_true_iff in E as [E E5]. apply andb_true_iff in E as [E E4].
  apply andb_true_iff in E as [E E3]. apply andb_true_iff in E as [E1 E2]. apply String.eqb_eq in E1.
  unfold show_domain, domain_body.
  rewrite (do_types _ _ O). destruct (print_types_with_parents (d_types d')) as [ts|]; auto.
  cbn [bind]. rewrite E1.
  rewrite (sorted_collection _ _ _ _ _ (reqs_same _ _ RA RB E2)).
  rewrite (constants_same _ _ _ (do_constants _ _ O)).
  rewrite (functions_same _ _ F F' E6 S2 W2).
  assert (X : match d_predicates d with [] => "" | ps => "(:predicates " +++ print_predicates ps +++ ")" +++ nl end
            = match d_predicates d' with [] => "" | ps => "(:predicates " +++ print_predicates ps +++ ")" +++ nl end).
  { pose proof (predicates_same _ _ PRA PRB E5 S1 W1) as P. pose proof (set_eqb_nil _ _ _ E5) as Z.
    destruct (d_predicates d), (d_predicates d'); auto.
    - discriminate (proj1 Z eq_refl).
    - discriminate (proj2 Z eq_refl).
    - now rewrite P. }
  rewrite X. rewrite Forall_forall in S5. unfold domain_forms in S5.
  rewrite (sorted_collection _ (map show_derived (d_derived d)) (map show_derived (d_derived d'))).
  - rewrite (sorted_collection _ (map (fun a => show_action a +++ nl) (d_actions d)) (map (fun a => show_action a +++ nl) (d_actions d'))); auto.
    apply (alike_texts _ _ _ _ (do_actions _ _ O)). intros x y HX HY (N & P & Pc & Pe). f_equal.
    unfold show_action. rewrite N, (order_typed_vars _ _ P (S4 x HX)).
    assert (SF : forall f, In f (action_forms x) -> settled f) by (intros f I; apply S5, in_or_app; right; apply in_flat_map; eauto).
    unfold action_forms in SF.
    destruct (a_pre x) as [px|], (a_pre y) as [py|]; cbn in Pc; try contradiction; destruct (a_eff x) as [ex|], (a_eff y) as [ey|]; cbn in Pe; try contradiction; cbn in SF;
      rewrite ?(order_show _ _ Pc), ?(order_show _ _ Pe); auto.
  - apply (alike_texts _ _ _ _ (do_derived _ _ O)). intros x y HX HY (N & P & Pc).
    unfold show_derived. rewrite (order_show _ _ Pc).
    2:{ apply S5, in_or_app. left. now apply in_map. }
    rewrite (predicates_same [(dp_name x, dp_terms x)] [(dp_name y, dp_terms y)]); auto.
    + constructor; [reflexivity|constructor].
    + constructor; [reflexivity|constructor].
    + assert (E0 : atom_eqb (dp_name x, dp_terms x) (dp_name y, dp_terms y) = true) by (apply atom_order_eqb; split; auto).
      unfold set_eqb, subset, memb. cbn. rewrite E0. rewrite (eqv_sym _ atom_eqb_equiv) in E0. now rewrite E0.
    + intros p [<-|[]]. cbn. auto.
    + intros p [<-|[]]. cbn. eapply order_some; eauto.
Qed.

(** ** domains read back *)
Lemma sim_settled g : forall f, sim f g -> nff g -> settled g -> settled f.
Proof.
  assert (X : forall l m, Forall (fun g => forall f, sim f g -> nff g -> settled g -> settled f) m -> Forall2 sim l m -> Forall nff m -> Forall settled m -> Forall settled l).
  { intros l m H F. induction F; auto. intros N S. inversion N; inversion S; inversion H; subst. constructor; auto. }
  induction g using form_ind'; intros f S; inversion S; subst; cbn [nff settled]; rewrite ?fold_and_Forall; auto.
  - intros [N _] T. eapply X; eauto.
  - intros [N _] T. eapply X; eauto.
  - intros [N1 N2] [T1 T2]. match goal with A : same_block _ _ |- _ => destruct A as [_ A]; rewrite (A N1) end. auto.
  - intros [N1 N2] [T1 T2]. auto.
  - intros [N1 N2] [T1 T2]. match goal with A : same_block _ _ |- _ => destruct A as [_ A]; rewrite (A N1) end. auto.
Qed.
Lemma settled_expressible d : expressible_domain d -> Forall settled (domain_forms d) -> settled_domain d.
Proof.
  intros [ER ET EC EP EF ED EA] S. rewrite Forall_forall in EP, EF, ED, EA. constructor; auto.
  - intros p I. destruct (EP p I) as (vs & H & _ & V & _). rewrite H. now apply legal_some.
  - intros f I. destruct (EF f I) as (vs & H & _ & (V & _) & _). rewrite H. now apply legal_some.
  - intros x I. destruct (ED x I) as (vs & us & H & _ & V & _). rewrite H. now apply legal_some.
  - intros a I. destruct (EA a I) as (vs & pre & eff & Ey & _ & (_ & O & _) & _). rewrite Ey. cbn [a_params]. apply Forall_map.
    eapply Forall_impl; [|exact O]. intros v Hv. now exists v.
Qed.
Lemma settled_unmixed d : Forall settled (domain_forms d) -> never_mixed_domain d.
Proof.
  assert (N : forall vs, single vs -> unmixed vs).
  { intros vs [L O]. destruct vs as [|v [|]]; cbn in L; try lia; [left; intros ? []|].
    destruct (v_tags v) as [|g gs] eqn:E; [left|right]; intros w [<-|[]]; congruence. }
  assert (Y : forall f, settled f -> never_mixed f).
  { induction f using form_ind'; cbn [settled never_mixed]; rewrite ?fold_and_Forall; auto; try tauto.
    - intros S. rewrite Forall_forall in *. auto.
    - intros S. rewrite Forall_forall in *. auto.
    - intros [S1 S2]. auto.
    - intros [S1 S2]. auto. }
  intros S. rewrite Forall_forall in S. unfold domain_forms in S. split.
  - intros a f Ha H. apply Y, S, in_or_app. right. apply in_flat_map. exists a. split; auto. unfold action_forms. apply in_or_app. destruct H as [H|H]; rewrite H; cbn; auto.
  - intros x Hx. apply Y, S, in_or_app. left. now apply in_map.
Qed.
Theorem text_settled d : domain_built d -> expressible_domain d -> NoDupE atom_eqb (map fst (d_functions d)) -> Forall settled (domain_forms d) ->
  exists s q, show_domain d = Ok s /\ parse_domain_fresh s = Ok q /\ show_domain q = Ok s /\ domain_built q /\ settled_domain q /\ NoDupE atom_eqb (map fst (d_functions q)).
Proof.
  intros B X F ST. destruct (domain_read_alike d B X F) as (s & q & SH & PA & E & C & DA & AA).
  destruct (domain_text d B X F) as (s' & q' & SH' & PA' & _ & SQ). rewrite SH in SH'. injection SH' as <-. rewrite PA in PA'. injection PA' as <-.
  exists s, q. split; auto. split; auto. split; auto.
  destruct (parsed_domain_parts _ _ PA) as (n0 & l0 & _ & PP). destruct (parsed_vars_some _ q PP) as (V1 & V2 & V3 & V4).
  destruct PP as [BQ _ _ _ _ [FQ _] _ _]. split; auto. split; auto.
  pose proof (settled_expressible d X ST) as [_ _ _ S4 _]. destruct X as [ER ET EC EP EF ED EA]. rewrite Forall_forall in ED, EA, ST. unfold domain_forms in ST.
  assert (Q1 : forall a, In a (d_actions q) -> exists b, In b (d_actions d) /\ same_action a b).
  { intros a Ha. destruct AA as (m & Fm & Pm). clear - Ha Fm Pm. assert (H : exists b, In b m /\ same_action a b).
    { clear Pm. induction Fm as [|x y l m Q Fm IH]; [contradiction|]. destruct Ha as [->|Ha]; [exists y; cbn; auto|]. destruct (IH Ha) as (b & ? & ?). exists b. cbn. auto. }
    destruct H as (b & Hb & Q). exists b. split; auto. eapply Permutation_in; eauto. }
  assert (Q2 : forall a, In a (d_derived q) -> exists b, In b (d_derived d) /\ same_derived a b).
  { intros a Ha. destruct DA as (m & Fm & Pm). clear - Ha Fm Pm. assert (H : exists b, In b m /\ same_derived a b).
    { clear Pm. induction Fm as [|x y l m Q Fm IH]; [contradiction|]. destruct Ha as [->|Ha]; [exists y; cbn; auto|]. destruct (IH Ha) as (b & ? & ?). exists b. cbn. auto. }
    destruct H as (b & Hb & Q). exists b. split; auto. eapply Permutation_in; eauto. }
  constructor; auto.
  - intros a Ha. destruct (Q1 a Ha) as (b & Hb & _ & T & _). rewrite (params_equal _ _ T (V4 a Ha) (S4 b Hb)). auto.
  - apply Forall_forall. intros f Hf. unfold domain_forms in Hf. apply in_app_or in Hf as [Hf|Hf].
    + apply in_map_iff in Hf as (x & <- & Hx). destruct (Q2 x Hx) as (y & Hy & _ & _ & SM).
      destruct (ED y Hy) as (vs & us & Ey & _ & L & _ & _ & _ & _ & _ & By & _). apply (sim_settled _ _ SM); [now apply built_nff|].
      apply ST, in_or_app. left. now apply in_map.
    + apply in_flat_map in Hf as (x & Hx & Hf). destruct (Q1 x Hx) as (y & Hy & _ & _ & p & e & p' & e' & E1 & E2 & E3 & E4 & M1 & M2).
      destruct (EA y Hy) as (vs & pre & eff & Ey & _ & _ & _ & B1 & _ & B2 & _). rewrite Ey in E3, E4. cbn in E3, E4. injection E3 as <-. injection E4 as <-.
      assert (Z : forall g, g = pre \/ g = eff -> settled g).
      { intros g Hg. apply ST, in_or_app. right. apply in_flat_map. exists y. split; auto. rewrite Ey. cbn. destruct Hg as [->| ->]; auto. }
      unfold action_forms in Hf. rewrite E1, E2 in Hf. cbn in Hf. destruct Hf as [<-|[<-|[]]].
      * apply (sim_settled _ _ M1); [now apply built_nff|auto].
      * apply (sim_settled _ _ M2); [now apply built_nff|auto].
Qed.

(** ** problems *)
Theorem order_problem_text p p' : problem_order p p' -> Forall settled (problem_forms p) -> show_problem p = show_problem p'.
Proof.
  intros [O1 [O2 O2'] O3 O4 O5 O6 O7 O8] S. rewrite Forall_forall in S. unfold problem_forms in S.
  unfold show_problem, problem_body, get_domain_name, get_requirements. rewrite O1, O2, O2', O3.
  assert (R : Permutation (map req_str match p_reqs p with Some rs => rs | None => [] end) (map req_str match p_reqs p' with Some rs => rs | None => [] end)).
  { destruct (p_reqs p), (p_reqs p'); cbn in O4; try contradiction; auto. now apply Permutation_map. }
  rewrite (constants_same _ _ _ O5), (order_show _ _ O7) by (apply S, in_or_app; right; now left).
  rewrite (sorted_collection _ (map show_form (p_init p)) (map show_form (p_init p'))).
  2:{ apply (alike_texts _ _ _ _ O6). intros x y HX HY Q. apply order_show; auto. apply S, in_or_app. now left. }
  assert (M : match p_metric p with Some m => "(:metric " +++ show_metric m +++ ")" +++ nl | None => "" end
            = match p_metric p' with Some m => "(:metric " +++ show_metric m +++ ")" +++ nl | None => "" end).
  { destruct (p_metric p) as [m|], (p_metric p') as [m'|]; cbn in O8; try contradiction; auto. destruct O8 as [A C]. unfold show_metric. rewrite A, (order_show _ _ C); auto.
    apply S, in_or_app. right. cbn. auto. }
  rewrite M. now rewrite (sorted_collection _ _ _ _ _ R).
Qed.
Lemma parsed_problem_settled s p : parse_problem s = Ok p -> p_domain p = None /\ Forall settled (problem_forms p).
Proof.
  intros P. destruct (parsed_problem_loose s p P) as (_ & D & [_ _ L3 [_ L5] L6]). split; auto.
  assert (E : forall F f, lexp F f -> settled f).
  { intros F f. induction f using form_ind'; cbn [lexp settled]; try contradiction; auto. intros L. apply fold_and_Forall, Forall_forall. intros x Hx.
    rewrite Forall_forall in H. apply H; auto. destruct k; try contradiction; try (apply fold_and_Forall in L; rewrite Forall_forall in L; now apply L).
    destruct ops as [|a [|]]; try contradiction. destruct Hx as [<-|[]]. exact L. }
  assert (M : forall f, lmet f -> settled f).
  { intros f. induction f using form_ind'; cbn [lmet settled]; try contradiction; auto. intros L. apply fold_and_Forall, Forall_forall. intros x Hx.
    rewrite Forall_forall in H. apply H; auto. destruct k; try contradiction; try (apply fold_and_Forall in L; rewrite Forall_forall in L; now apply L).
    destruct ops as [|a [|]]; try contradiction. destruct Hx as [<-|[]]. exact L. }
  assert (G : forall F f, lcond F [] f -> settled f).
  { intros F f. induction f using form_ind'; cbn [lcond settled]; try contradiction; auto.
    - intros L. apply fold_and_Forall, Forall_forall. intros x Hx. apply (E F).
      destruct k; try contradiction; try (rewrite Forall_forall in L; now apply L).
      all: destruct ops as [|a [|b [|]]]; try contradiction; destruct L as [A B]; destruct Hx as [<-|[<-|[]]]; auto.
    - intros L. apply fold_and_Forall, Forall_forall. intros x Hx. rewrite Forall_forall in H. apply H; auto.
      destruct k; try contradiction.
      + apply fold_and_Forall in L. rewrite Forall_forall in L. now apply L.
      + destruct L as [(r & _ & []) _].
      + destruct ops as [|a [|b [|]]]; try contradiction. destruct L as [(r & _ & []) _].
    - intros [(r & _ & []) _]. }
  apply Forall_forall. intros f Hf. unfold problem_forms in Hf. apply in_app_or in Hf as [Hf|[<-|Hf]].
  - rewrite Forall_forall in L3. specialize (L3 f Hf). destruct L3; cbn; auto.
  - eapply G; eauto.
  - destruct (p_metric p) as [m|]; [|contradiction]. destruct Hf as [<-|[]]. apply M. now apply (L6 m).
Qed.
