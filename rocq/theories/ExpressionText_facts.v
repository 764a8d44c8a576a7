(** Facts for C78: parsed domains and problems have plain numbers. *)
From Coq Require Import String Ascii List Bool NArith ZArith Lia.
From Verif Require Import Py Py_facts Names Names_facts Req Reqs Logic Logic_facts Validation Core Core_facts CoreEq_facts Show Lexer TypedList UpdateTags Parser.
From Verif Require Import Spec Spec_Problem Spec_Copy Spec_Text Spec_Format Spec_Numbers Spec_Expression Built_facts Ops_facts NF_facts Copy_facts CopyText_facts.
From Verif Require Import Parse_facts GD_facts Derived_facts Domain_facts Loose_facts Number_facts Problem_facts Format_facts FormatDomain_facts Expression_facts.
Import ListNotations.
Open Scope string_scope.
Open Scope list_scope.

Lemma bal_digits s : forall z z', horner z s = Some z' -> balanced s.
Proof.
  induction s as [|c s IH]; intros z z' H; [apply bal_nil|]. cbn in H.
  destruct (Spec_Numbers.digit c) as [v|] eqn:D; [|discriminate]. apply IH in H.
  intros n. cbn [read_chars]. replace (read_char (Inside n) c) with (Some (Inside n)); [apply H|].
  unfold Spec_Numbers.digit in D. destruct c as [[] [] [] [] [] [] [] []]; cbn in D |- *; try discriminate; reflexivity.
Qed.
Lemma bal_dotted s : dotted s -> balanced s.
Proof.
  induction 1 as [s z _ H|s f z _ IH _ H]; [eapply bal_digits; eauto|].
  apply bal_app; auto. apply (bal_app "." f); [intros n; reflexivity|eapply bal_digits; eauto].
Qed.

Lemma plain_fold ops : Forall plain_numbers ops -> fold_right (fun g p => plain_numbers g /\ p) True ops.
Proof. intros H. now apply fold_and_Forall. Qed.
Lemma plain_lexp F f : lexp F f -> plain_numbers f.
Proof.
  induction f using form_ind'; cbn [lexp plain_numbers]; auto.
  - destruct v; auto. intros [].
  - intros L. apply plain_fold. destruct k; try (now destruct L).
    + destruct ops as [|a [|]]; try (now destruct L). inversion H; subst. auto.
    + apply fold_and_Forall in L. rewrite Forall_forall in *. auto.
    + apply fold_and_Forall in L. rewrite Forall_forall in *. auto.
    + apply fold_and_Forall in L. rewrite Forall_forall in *. auto.
  - intros [].
  - intros [].
  - intros [].
  - intros [].
  - intros [].
Qed.
Lemma plain_latom F X f : latom F X f -> plain_numbers f.
Proof. destruct f; cbn; tauto. Qed.
Lemma plain_lcond F X f : lcond F X f -> plain_numbers f.
Proof.
  induction f using form_ind'; cbn [lcond]; try (now intros []); auto.
  - intros L. apply plain_fold.
    assert (E : Forall (lexp F) ops).
    { destruct k; try (now destruct L); try (destruct ops as [|a [|b [|]]]; try (now destruct L); destruct L; now repeat constructor). }
    eapply Forall_impl; [|exact E]. intros g. apply plain_lexp.
  - intros L. apply plain_fold.
    assert (E : Forall (lcond F X) ops).
    { destruct k; try (now destruct L).
      - now apply fold_and_Forall in L.
      - destruct L as [_ L]. now apply fold_and_Forall in L.
      - destruct ops as [|a [|b [|]]]; try (now destruct L). destruct L as (_ & A & B). now repeat constructor. }
    rewrite Forall_forall in *. auto.
  - intros (_ & _ & L). cbn. auto.
Qed.
Lemma plain_lprim F X f : lprim F X f -> plain_numbers f.
Proof.
  destruct f; cbn [lprim]; try (now intros []); auto.
  - intros L. apply plain_fold.
    destruct k; try (now destruct L); destruct ops as [|[] [|e [|]]]; try (now destruct L); destruct L as (_ & _ & L);
      repeat constructor; eapply plain_lexp; eauto.
  - intros L. cbn. eapply plain_latom; eauto.
Qed.
Lemma plain_lcons F X f : lcons F X f -> plain_numbers f.
Proof.
  intros [L|(ops & -> & L)]; [eapply plain_lprim; eauto|]. apply plain_fold. eapply Forall_impl; [|exact L]. intros g. apply plain_lprim.
Qed.
Lemma plain_leff F X f : forall b, leff F X b f -> plain_numbers f.
Proof.
  induction f using form_ind'; intros b; cbn [leff]; intros [L|L]; try (exact (plain_lprim F X _ L)); try (now destruct L); try exact Logic.I.
  - apply plain_fold. destruct k; try (now destruct L).
    + destruct L as [_ L]. apply fold_and_Forall in L. rewrite Forall_forall in *. eauto.
    + destruct L as (_ & _ & L). apply fold_and_Forall in L. rewrite Forall_forall in *. eauto.
  - destruct L as [L1 L2]. split; [eapply plain_lcond|eapply plain_lcons]; eauto.
  - destruct L as [_ L]. cbn. eauto.
Qed.
Lemma plain_lmet f : lmet f -> plain_numbers f.
Proof.
  induction f using form_ind'; cbn [lmet plain_numbers]; try (now intros []); auto.
  - destruct v; auto. apply bal_dotted.
  - intros L. apply plain_fold. destruct k; try (now destruct L).
    + destruct ops as [|a [|]]; try (now destruct L). inversion H; subst. auto.
    + apply fold_and_Forall in L. rewrite Forall_forall in *. auto.
    + apply fold_and_Forall in L. rewrite Forall_forall in *. auto.
    + apply fold_and_Forall in L. rewrite Forall_forall in *. auto.
Qed.

(** replacing types keeps the numbers *)
Lemma plain_mk_op c ops : Forall plain_numbers ops -> plain_numbers (mk_op c ops).
Proof.
  apply (mk_op_again plain_numbers).
  - intros f l O. apply ops_if_raw in O. subst. destruct c; cbn [plain_numbers raw_node]; now rewrite fold_and_Forall.
  - intros l _ F. destruct c; cbn [plain_numbers raw_node]; now rewrite fold_and_Forall.
Qed.
Lemma plain_update f : plain_numbers f -> forall m f', update_type_tags m f = Ok f' -> plain_numbers f'.
Proof.
  assert (L : forall ops, Forall (fun f => plain_numbers f -> forall m f', update_type_tags m f = Ok f' -> plain_numbers f') ops -> Forall plain_numbers ops ->
    forall m ops', mapR (update_type_tags m) ops = Ok ops' -> Forall plain_numbers ops').
  { intros ops F G m ops' M. apply mapR_Ok in M. induction M as [|a b l l' E M IH]; inversion F; inversion G; subst; constructor; eauto. }
  induction f using form_ind'; cbn [plain_numbers]; rewrite ?fold_and_Forall; intros G m f' U; cbn in U; try discriminate.
  - apply bind_Ok in U as (ts' & R & U). apply mk_pred_iff in U as (-> & _). exact Logic.I.
  - apply bind_Ok in U as (l2 & A & U). apply bind_Ok in U as (r2 & B & U). apply mk_eq_Ok in U as ->. exact Logic.I.
  - apply bind_Ok in U as (ts' & R & U). unfold mk_numfun in U. apply bind_Ok in U as (n' & _ & U). inversion U. exact Logic.I.
  - injection U as <-. exact G.
  - apply bind_Ok in U as (ops' & M & U). injection U as <-. apply (plain_mk_op (CFun k)). eauto.
  - apply bind_Ok in U as (ops' & M & U). injection U as <-. apply (plain_mk_op (CBin k)). eauto.
  - apply bind_Ok in U as (g' & M & U). injection U as <-. cbn. eauto.
  - apply bind_Ok in U as (g' & M & U). injection U as <-. cbn. eauto.
Qed.

(** ** domains *)
Lemma all_vars st s tl vs : g_vars (domain_ctx st) s = Ok tl -> mk_vars tl = Ok vs -> vars_ok (dedup var_eqb vs).
Proof. apply binder_vars. Qed.
Lemma plain_parsed_action l st st' a : action_def l st = (st', Ok a) -> plain_action a /\
  (forall f, a_pre a = Some f \/ a_eff a = Some f -> forall v, f <> FNumVal v).
Proof.
  intros H. apply action_def_st in H as (n & ps & body & vs & b & _ & P & B & A).
  unfold mk_action in A. apply bind_Ok in A as (n' & _ & A). inversion A; subst a.
  unfold action_body in B. destruct body as [|k1 [|x [|k2 [|y [|]]]]]; try discriminate;
      try (destruct (is_kw _ _); [apply bind_Ok in B as (? & _ & B); discriminate|];
           destruct (is_kw _ _); [apply bind_Ok in B as (? & _ & B); discriminate|discriminate]).
  destruct (is_kw _ _ && is_kw _ _); [|discriminate].
  apply bind_Ok in B as (p & Q & B). apply bind_Ok in B as (e & R & B). inversion B; subst b. cbn [fst snd].
  apply (emptyor_pregd_l _ (fun _ => True) (fun _ _ => Logic.I) (all_vars _)) in Q.
  apply (emptyor_effect_l _ (fun _ => True) (fun _ _ => Logic.I) (all_vars _)) in R.
  split; [split; cbn; intros f [= <-]|].
  - destruct Q as [->|Q]; [exact Logic.I|eapply plain_lcond; eauto].
  - destruct R as [->|R]; [exact Logic.I|eapply plain_leff; eauto].
  - cbn [a_pre a_eff]. intros f [[= <-]|[= <-]] v ->.
    + destruct Q as [Q|Q]; [discriminate|exact Q].
    + destruct R as [R|[R|R]]; [discriminate|exact R|exact R].
Qed.
Lemma plain_parsed_derived l st st' x : derived_def l st = (st', Ok x) -> plain_numbers (dp_cond x).
Proof.
  intros H. unfold derived_def in H. destruct l as [|h [|y [|]]]; try (apply ret_Ok in H as [_ H]; discriminate).
  apply bindM_Ok in H as (st1 & hd & A & H). apply ret_Ok in A as [-> A].
  apply bindM_Ok in H as (st2 & c & G & H). apply reads_Ok in G as [-> G]. apply reads_Ok in H as [-> H].
  apply (gd_l _ (fun _ => True) (fun _ _ => Logic.I) (all_vars _)) in G. apply plain_lcond in G.
  unfold derived_callback in H. destruct (dict_get _ _ _) as [def|]; [|discriminate].
  apply bind_Ok in H as ([] & _ & H). apply bind_Ok in H as (m & _ & H). apply bind_Ok in H as (p & P & H).
  apply bind_Ok in H as (c' & Q & H). apply plain_update in Q; auto. destruct p; try discriminate. inversion H; subst. exact Q.
Qed.
Lemma parsed_domain_plain s d : parse_domain_fresh s = Ok d -> plain_domain d.
Proof.
  intros H. apply parsed_domain_parts in H as (n & l & _ & [P1 P2 P3 P4 P5 [P6 P7] P8 P9]). split; [|split].
  - apply Forall_forall. intros a I. apply P8 in I as (b & s1 & s2 & _ & D & _). eapply proj1, plain_parsed_action; eauto.
  - apply Forall_forall. intros a I. apply P9 in I as (b & s1 & s2 & _ & D & _). eapply plain_parsed_derived; eauto.
  - intros f t I. rewrite Forall_forall in P7. apply P7 in I as (_ & [E|E]); cbn in E; [discriminate|]. injection E as ->.
    intros k. reflexivity.
Qed.

Lemma parsed_actions s d : parse_domain_fresh s = Ok d -> forall a f, In a (d_actions d) -> a_pre a = Some f \/ a_eff a = Some f ->
  forall v, f <> FNumVal v.
Proof.
  intros H a f I E. apply parsed_domain_parts in H as (n & l & _ & [P1 P2 P3 P4 P5 [P6 P7] P8 P9]).
  apply P8 in I as (b & s1 & s2 & _ & D & _). apply plain_parsed_action in D as [_ D]. eauto.
Qed.

Lemma made_domain_actions d : made_domain d -> Forall made_action (d_actions d).
Proof.
  intros (n & rs & ty & cs & ps & dps & fs & acts & M & F1 & F2 & F3 & F4 & F5).
  apply mk_domain_inv in M as (N & PN & R & T & TC & C & P & DP & FS & A & K). rewrite A. now apply Forall_dedup_sub.
Qed.

(** ** problems *)
Lemma plain_init f : init_form f -> plain_numbers f.
Proof. intros []; cbn; auto. Qed.
Lemma parsed_problem_plain s p : parse_problem s = Ok p -> plain_problem p.
Proof.
  intros H. apply parsed_problem_loose in H as (_ & _ & [_ _ L3 [_ L4] L5]). split; [|split].
  - eapply Forall_impl; [|exact L3]. apply plain_init.
  - eapply plain_lcond; eauto.
  - intros m M. destruct (L5 m M) as (_ & _ & L). now apply plain_lmet.
Qed.
