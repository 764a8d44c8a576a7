(** Formulas that print as the same text (C74). *)
From Coq Require Import String Ascii List Bool Arith ZArith Lia.
From Verif Require Import Py Names Reqs Logic Core Lexer Show Parser.
From Verif Require Import Spec_Parse Spec_Print Spec_Numbers Spec_Text Spec_Distinct.
From Verif Require Import Py_facts Names_facts Logic_facts Lex_facts Text_facts Print_facts NumShow_facts Vars_facts FormText_facts.
Import ListNotations.
Open Scope string_scope.
Open Scope list_scope.

Lemma function_identifier n : legal_function n -> identifier n.
Proof. now intros []. Qed.
Lemma well_named_readable f : well_named f -> readable f.
Proof.
  induction f using form_ind'; cbn [well_named readable]; intros W; auto.
  - destruct W as [[] ?]. auto.
  - destruct W as [[] ?]. auto.
  - apply fold_and_Forall'. apply fold_and_Forall' in W. rewrite Forall_forall in *. auto.
  - apply fold_and_Forall'. apply fold_and_Forall' in W. rewrite Forall_forall in *. auto.
  - destruct W; auto.
  - destruct W; auto.
  - destruct W; auto.
Qed.

(** ** trees determine terms and parameters *)
Lemma term_sx_inj t u l m : term_sx t ++ l = term_sx u ++ m -> same_word t u /\ l = m.
Proof.
  destruct t as [n g|[n g]], u as [k h|[k h]]; cbn; intros E; inversion E; subst; split; auto; constructor.
Qed.
Lemma terms_sx_inj ts : forall us, flat_map term_sx ts = flat_map term_sx us -> Forall2 same_word ts us.
Proof.
  induction ts as [|t ts IH]; intros [|u us] E; auto.
  - destruct u as [|[]]; discriminate.
  - destruct t as [|[]]; discriminate.
  - cbn [flat_map] in E. apply term_sx_inj in E as [S E]. auto.
Qed.

Definition starts_var (l : list sexp) : Prop := l = [] \/ exists r, l = SAtom QMARK :: r.
Lemma flat_plain_starts vs : starts_var (flat_map plain_sx vs).
Proof. destruct vs; [now left|right]. eexists. reflexivity. Qed.
Lemma tags_inj gs : forall hs l m, map name_sx gs ++ l = map name_sx hs ++ m -> starts_var l -> starts_var m ->
  gs = hs /\ l = m.
Proof.
  induction gs as [|g gs IH]; intros [|h hs] l m E L M; auto.
  - cbn in E. subst. destruct L as [L|[r L]]; discriminate.
  - cbn in E. subst. destruct M as [M|[r M]]; discriminate.
  - cbn in E. injection E as -> E. destruct (IH _ _ _ E L M); subst; auto.
Qed.
Lemma plain_sx_inj v w l m : plain_sx v ++ l = plain_sx w ++ m -> starts_var l -> starts_var m -> v = w /\ l = m.
Proof.
  destruct v as [n gs], w as [k hs]. unfold plain_sx. cbn [v_name v_tags]. intros E L M.
  destruct gs as [|g gs], hs as [|h hs]; cbn in E.
  - injection E as -> E. auto.
  - exfalso. injection E as -> E. subst. destruct L as [L|[r L]]; discriminate.
  - exfalso. injection E as -> E. subst. destruct M as [M|[r M]]; discriminate.
  - injection E as -> -> E. destruct (tags_inj _ _ _ _ E L M); subst; auto.
Qed.
Lemma plains_inj vs : forall ws, flat_map plain_sx vs = flat_map plain_sx ws -> vs = ws.
Proof.
  induction vs as [|v vs IH]; intros [|w ws] E; auto.
  - discriminate.
  - discriminate.
  - cbn [flat_map] in E. apply plain_sx_inj in E as [-> E]; try apply flat_plain_starts.
    now rewrite (IH _ E).
Qed.

(** ** trees determine formulas *)
Lemma legal_not n k : legal_name n -> In k reserved_words -> n <> k.
Proof. intros [_ H] I ->. auto. Qed.
Lemma function_not n k : legal_function n -> In k reserved_words -> k <> "total-cost" -> n <> k.
Proof. intros [_ H] I N ->. auto. Qed.
Lemma forms_inj fs : Forall (fun f => forall g, well_named f -> well_named g -> form_sx f = form_sx g -> same_reading f g) fs ->
  forall gs, Forall well_named fs -> Forall well_named gs -> map form_sx fs = map form_sx gs -> Forall2 same_reading fs gs.
Proof.
  induction 1 as [|f fs IH F IHs]; intros [|g gs] W V E; try discriminate; constructor;
    inversion W; inversion V; injection E as ? ?; subst; auto.
Qed.
Lemma head_not_atom n k : (legal_name n \/ legal_function n) -> name_sx n <> bfun_sx k.
Proof.
  intros H E. destruct k; cbn in E; try discriminate; injection E as ->;
    destruct H as [[_ H]|[_ H]]; cbn in H; intuition discriminate.
Qed.
Lemma reserved_head n k : (legal_name n \/ legal_function n) -> In k reserved_words -> k <> "total-cost" -> n <> k.
Proof. intros [H|H] I N; [now apply legal_not|now apply function_not]. Qed.
Lemma bfun_inj k j : bfun_sx k = bfun_sx j -> k = j.
Proof. destruct k, j; cbn; auto; intros; discriminate. Qed.
Lemma term_not_forms l r ops : term_sx l ++ term_sx r <> map form_sx ops.
Proof.
  destruct ops as [|f ops]; cbn; [destruct l as [|[]]; discriminate|].
  destruct l as [|[]], f; discriminate.
Qed.

Ltac bad :=
  exfalso; match goal with
  | H : legal_name ?n, E : ?n = _ |- _ => revert E; apply (reserved_head n); [auto|cbn; tauto|discriminate]
  end.
Lemma form_sx_inj f : forall g, well_named f -> well_named g -> form_sx f = form_sx g -> same_reading f g.
Proof.
  assert (A : forall f g n m ts us, atomic f n ts -> atomic g m us ->
    SList (name_sx n :: flat_map term_sx ts) = SList (name_sx m :: flat_map term_sx us) -> same_reading f g).
  { intros f0 g n m ts us F G E. injection E as -> E. eapply SR_atom; eauto. now apply terms_sx_inj. }
  assert (K : forall n k l m, legal_name n \/ legal_function n -> In k reserved_words -> k <> "total-cost" ->
    SList (name_sx n :: l) <> SList (name_sx k :: m)).
  { intros n k l m H I N E. injection E as -> _. now apply (reserved_head k k H I N). }
  assert (B : forall n k l m, legal_name n \/ legal_function n -> SList (name_sx n :: l) <> SList (bfun_sx k :: m)).
  { intros n k l m H E. injection E as E _. now apply (head_not_atom n k H). }
  assert (Rb : forall k, In (bop_symbol k) reserved_words /\ bop_symbol k <> "total-cost")
    by (intros []; cbn; split; [tauto|discriminate|tauto|discriminate|tauto|discriminate|tauto|discriminate]).
  assert (Rq : forall k, In (quant_symbol k) reserved_words /\ quant_symbol k <> "total-cost")
    by (intros []; cbn; split; [tauto|discriminate|tauto|discriminate]).
  assert (Rn : In "not" reserved_words /\ "not" <> "total-cost") by (cbn; split; [tauto|discriminate]).
  assert (Rw : In "when" reserved_words /\ "when" <> "total-cost") by (cbn; split; [tauto|discriminate]).
  assert (Rf : In "forall" reserved_words /\ "forall" <> "total-cost") by (cbn; split; [tauto|discriminate]).
  induction f using form_ind'; intros h W V E.
  - destruct W as [W _]. destruct h; cbn [form_sx] in E; try discriminate.
    + eapply A; eauto; constructor.
    + eapply A; eauto; constructor.
    + exfalso. eapply B; eauto.
    + exfalso. eapply K; [| | |exact E]; try apply Rb; auto.
    + exfalso. eapply K; [| | |exact E]; try apply Rn; auto.
    + exfalso. eapply K; [| | |exact E]; try apply Rq; auto.
    + exfalso. eapply K; [| | |exact E]; try apply Rw; auto.
    + exfalso. eapply K; [| | |exact E]; try apply Rf; auto.
  - destruct h; cbn [form_sx] in E; try discriminate.
    + injection E as E. apply term_sx_inj in E as [S E].
      rewrite <- (app_nil_r (term_sx r)), <- (app_nil_r (term_sx r0)) in E. apply term_sx_inj in E as [S' _].
      now constructor.
    + exfalso. injection E as _ E. eapply term_not_forms; eauto.
  - destruct W as [W _]. destruct h; cbn [form_sx] in E; try discriminate.
    + eapply A; eauto; constructor.
    + eapply A; eauto; constructor.
    + exfalso. eapply B; eauto.
    + exfalso. eapply K; [| | |exact E]; try apply Rb; auto.
    + exfalso. eapply K; [| | |exact E]; try apply Rn; auto.
    + exfalso. eapply K; [| | |exact E]; try apply Rq; auto.
    + exfalso. eapply K; [| | |exact E]; try apply Rw; auto.
    + exfalso. eapply K; [| | |exact E]; try apply Rf; auto.
  - destruct h; cbn [form_sx] in E; try discriminate. injection E as E. now constructor.
  - destruct h; cbn [form_sx] in E; try discriminate.
    + exfalso. destruct V. symmetry in E. eapply B; eauto.
    + exfalso. injection E as E1 E. symmetry in E. eapply term_not_forms; eauto.
    + exfalso. destruct V. symmetry in E. eapply B; eauto.
    + injection E as E1 E. apply bfun_inj in E1 as ->. constructor.
      apply forms_inj; auto; now apply fold_and_Forall'.
    + exfalso. injection E as E _. destruct k, k0; discriminate.
    + exfalso. injection E as E _. destruct k; discriminate.
    + exfalso. injection E as E _. destruct k, q; discriminate.
    + exfalso. injection E as E _. destruct k; discriminate.
    + exfalso. injection E as E _. destruct k; discriminate.
  - destruct h; cbn [form_sx] in E; try discriminate.
    + exfalso. destruct V. symmetry in E. eapply K; [| | |exact E]; try apply Rb; auto.
    + exfalso. destruct V. symmetry in E. eapply K; [| | |exact E]; try apply Rb; auto.
    + exfalso. injection E as E _. destruct k, k0; discriminate.
    + injection E as E1 E. assert (k = k0) as -> by (destruct k, k0; cbn in E1; auto; discriminate).
      constructor. apply forms_inj; auto; now apply fold_and_Forall'.
    + exfalso. injection E as E _. destruct k; discriminate.
    + exfalso. injection E as E _. destruct k, q; discriminate.
    + exfalso. injection E as E _. destruct k; discriminate.
    + exfalso. injection E as E _. destruct k; discriminate.
  - destruct h; cbn [form_sx] in E; try discriminate.
    + exfalso. destruct V. symmetry in E. eapply K; [| | |exact E]; try apply Rn; auto.
    + exfalso. destruct V. symmetry in E. eapply K; [| | |exact E]; try apply Rn; auto.
    + exfalso. injection E as E _. destruct k; discriminate.
    + exfalso. injection E as E _. destruct k; discriminate.
    + injection E as E. constructor. auto.
  - destruct h; cbn [form_sx] in E; try discriminate.
    + exfalso. destruct V. symmetry in E. eapply K; [| | |exact E]; try apply Rq; auto.
    + exfalso. destruct V. symmetry in E. eapply K; [| | |exact E]; try apply Rq; auto.
    + exfalso. injection E as E _. destruct k, q; discriminate.
    + exfalso. injection E as E _. destruct k, q; discriminate.
    + injection E as E1 E2 E3. apply plains_inj in E2 as ->. destruct W, V.
      destruct q, q0; try discriminate; [eapply SR_forall|apply SR_exists]; try constructor; auto.
    + exfalso. injection E as E _. destruct q; discriminate.
    + injection E as E1 E2 E3. apply plains_inj in E2 as ->. destruct W, V.
      destruct q; try discriminate. eapply SR_forall; try constructor; auto.
  - destruct h; cbn [form_sx] in E; try discriminate.
    + exfalso. destruct V. symmetry in E. eapply K; [| | |exact E]; try apply Rw; auto.
    + exfalso. destruct V. symmetry in E. eapply K; [| | |exact E]; try apply Rw; auto.
    + exfalso. injection E as E _. destruct k; discriminate.
    + exfalso. injection E as E _. destruct k; discriminate.
    + exfalso. injection E as E _. destruct q; discriminate.
    + injection E as E1 E2. destruct W, V. constructor; auto.
  - destruct h; cbn [form_sx] in E; try discriminate.
    + exfalso. destruct V. symmetry in E. eapply K; [| | |exact E]; try apply Rf; auto.
    + exfalso. destruct V. symmetry in E. eapply K; [| | |exact E]; try apply Rf; auto.
    + exfalso. injection E as E _. destruct k; discriminate.
    + exfalso. injection E as E _. destruct k; discriminate.
    + injection E as E1 E2 E3. apply plains_inj in E2 as ->. destruct W, V.
      destruct q; try discriminate. eapply SR_forall; try constructor; auto.
    + injection E as E1 E2. apply plains_inj in E1 as ->. destruct W, V.
      eapply SR_forall; try constructor; auto.
Qed.

Lemma same_text_reading f g : well_named f -> well_named g -> show_form f = show_form g -> same_reading f g.
Proof.
  intros W V E. pose proof (rx_read _ _ (rx_form f (well_named_readable _ W))) as R1.
  pose proof (rx_read _ _ (rx_form g (well_named_readable _ V))) as R2. rewrite E in R1.
  rewrite R1 in R2. injection R2 as R2. now apply form_sx_inj.
Qed.

(** ** and the other way round *)
Lemma rstrip_end s c : is_space c = false -> rstrip (s +++ String c "") = s +++ String c "".
Proof.
  intros C. induction s as [|d s IH]; cbn [String.append rstrip].
  - now rewrite C.
  - rewrite IH. destruct s; cbn [String.append]; reflexivity.
Qed.
Definition ends_hard (s : string) : Prop := exists a c, s = a +++ String c "" /\ is_space c = false.
Lemma ends_hard_app a b : ends_hard b -> ends_hard (a +++ b).
Proof. intros (x & c & -> & C). exists (a +++ x), c. now rewrite append_assoc. Qed.
Lemma last_char c r : (forall d, In d (list_ascii_of_string (String c r)) -> is_space d = false) ->
  ends_hard (String c r).
Proof.
  revert c. induction r as [|d r IH]; intros c H.
  - exists "", c. split; auto. apply H. cbn. auto.
  - apply (ends_hard_app (String c "")). apply IH. intros e I. apply H. cbn in *. tauto.
Qed.
Lemma name_chars_hard : forallb (fun c => negb (is_space c)) (letters ++ Names_facts.digits ++ dash_underscore) = true.
Proof. reflexivity. Qed.
Lemma identifier_hard n : identifier n -> ends_hard n.
Proof.
  intros (c & r & -> & C & R). apply last_char. intros d I.
  pose proof name_chars_hard as F. rewrite forallb_forall in F. specialize (F d).
  apply negb_true_iff, F. destruct I as [<-|I]; [apply in_or_app; auto|auto].
Qed.
Lemma join_hard l : l <> [] -> Forall ends_hard l -> ends_hard (join " " l).
Proof.
  induction l as [|x l IH]; intros N F; [contradiction|]. inversion F; subst.
  destruct l as [|y l]; [exact H1|]. cbn [join]. cbn [join] in IH. apply ends_hard_app.
  apply ends_hard_app. apply IH; [discriminate|auto].
Qed.
Lemma qvar_hard v : legal_var v -> ends_hard (show_qvar v).
Proof.
  intros ((I & _) & T & _). unfold show_qvar, show_var. destruct (v_tags v) as [|g gs] eqn:G.
  - rewrite append_nil_r. apply (ends_hard_app "?"). now apply identifier_hard.
  - apply ends_hard_app, ends_hard_app, join_hard; [discriminate|].
    rewrite Forall_forall in *. intros t H. now apply identifier_hard, T.
Qed.
Lemma params_qvars vs : Forall legal_var vs -> typed_parameters (map TVar vs) = join " " (map show_qvar vs).
Proof.
  intros F. unfold typed_parameters. rewrite map_map, (map_ext _ _ show_param_qvar).
  destruct vs as [|v vs]; [reflexivity|].
  assert (H : ends_hard (join " " (map show_qvar (v :: vs)))).
  { apply join_hard; [discriminate|]. apply Forall_map. eapply Forall_impl; [|exact F]. apply qvar_hard. }
  assert (L : exists r, join " " (map show_qvar (v :: vs)) = String "?" r).
  { cbn [map join]. destruct (map show_qvar vs); eexists; reflexivity. }
  destruct L as [r L]. rewrite L in *. unfold Py.strip. change (lstrip (String "?" r)) with (String "?" r).
  destruct H as (a & c & E & C). rewrite E. now apply rstrip_end.
Qed.

Lemma same_word_show t u : same_word t u -> show_term t = show_term u.
Proof. now destruct 1. Qed.
Lemma same_words_show ts us : Forall2 same_word ts us -> map show_term ts = map show_term us.
Proof. induction 1; cbn; auto. f_equal; auto using same_word_show. Qed.
Lemma atomic_show f n ts : atomic f n ts -> show_form f = show_atom n ts.
Proof. now destruct 1. Qed.
Lemma universal_show f vs g : universal f vs g -> well_named f ->
  well_named g /\ show_form f = "(forall (" +++ join " " (map show_qvar vs) +++ ") " +++ show_form g +++ ")".
Proof.
  destruct 1; cbn [well_named show_form]; intros [F W]; split; auto.
  now rewrite (params_qvars _ F).
Qed.
Lemma reading_text f : forall g, same_reading f g -> well_named f -> well_named g -> show_form f = show_form g.
Proof.
  assert (A : forall f g n ts us, atomic f n ts -> atomic g n us -> Forall2 same_word ts us -> show_form f = show_form g).
  { intros f0 g n ts us F G H. rewrite (atomic_show _ _ _ F), (atomic_show _ _ _ G).
    unfold show_atom. rewrite (same_words_show _ _ H). now destruct H. }
  assert (O : forall fs, Forall (fun f => forall g, same_reading f g -> well_named f -> well_named g -> show_form f = show_form g) fs ->
    forall gs, Forall2 same_reading fs gs -> Forall well_named fs -> Forall well_named gs -> map show_form fs = map show_form gs).
  { induction 1 as [|f0 fs I _ IHs]; intros gs R W V; inversion R; subst; auto.
    inversion W; inversion V; subst. cbn. f_equal; auto. }
  assert (U : forall f g vs f' g', universal f vs f' -> universal g vs g' -> same_reading f' g' ->
    (forall g, same_reading f' g -> well_named f' -> well_named g -> show_form f' = show_form g) ->
    well_named f -> well_named g -> show_form f = show_form g).
  { intros f0 g vs f' g' F G R IH W V. destruct (universal_show _ _ _ F W) as [W' ->].
    destruct (universal_show _ _ _ G V) as [V' ->]. now rewrite (IH _ R W' V'). }
  induction f using form_ind'; intros h R W V; inversion R; subst;
    try (eapply A; eassumption);
    try (match goal with X : atomic ?f _ _ |- show_form ?f = _ => inversion X; fail end);
    try (match goal with X : universal ?f _ _ |- show_form ?f = _ => inversion X; subst; eapply U; eauto; fail end);
    cbn [show_form well_named] in *.
  - now rewrite (same_word_show _ _ H1), (same_word_show _ _ H3).
  - assumption.
  - erewrite O; [reflexivity|assumption|assumption|now apply fold_and_Forall'|now apply fold_and_Forall'].
  - erewrite O; [reflexivity|assumption|assumption|now apply fold_and_Forall'|now apply fold_and_Forall'].
  - now rewrite (IHf g).
  - rewrite (IHf g); tauto.
  - rewrite (IHf1 c'), (IHf2 e'); tauto.
Qed.
Lemma same_text_iff f g : well_named f -> well_named g -> (show_form f = show_form g <-> same_reading f g).
Proof. intros W V. split; intros H; [now apply same_text_reading|now apply reading_text]. Qed.

(** ** when the reading determines the formula *)
Lemma plain_words ts : forall us, Forall2 same_word ts us -> Forall plain_term ts -> Forall plain_term us ->
  list_eqb term_eqb ts us = true.
Proof.
  induction 1 as [|t u ts us S _ IH]; intros F G; auto. inversion F; inversion G; subst. cbn [list_eqb].
  rewrite IH by assumption. destruct S; cbn in *; [now rewrite String.eqb_refl|].
  subst. unfold var_eqb. cbn. now rewrite String.eqb_refl.
Qed.
Lemma plain_word t u : same_word t u -> plain_term t -> plain_term u -> term_eqb t u = true.
Proof.
  intros S F G. assert (E : list_eqb term_eqb [t] [u] = true) by (apply plain_words; repeat constructor; auto).
  cbn in E. now rewrite andb_true_r in E.
Qed.
Lemma plain_num_eqb b v w : plain_num b v -> plain_num b w -> show_num v = show_num w -> num_eqb v w = true.
Proof.
  intros V W E. destruct b.
  - destruct v, w; cbn in V, W; try (now destruct V); try (now destruct W). cbn in E. subst. cbn. apply String.eqb_refl.
  - assert (N : forall x, plain_num false x -> nonneg x) by (intros []; cbn; [tauto|tauto|discriminate]).
    destruct (show_num_literal v (N _ V)) as (x & X & X1 & _).
    destruct (show_num_literal w (N _ W)) as (y & Y & Y1 & _). rewrite E, Y in X. injection X as ->.
    eapply (eqv_trans _ num_eqb_equiv); [|exact Y1]. now rewrite (eqv_sym _ num_eqb_equiv).
Qed.
Lemma reading_equal F b f : forall c g, same_reading f g -> plain F b c f -> plain F b c g -> form_eqb f g = true.
Proof.
  assert (O : forall c fs, Forall (fun f => forall c g, same_reading f g -> plain F b c f -> plain F b c g -> form_eqb f g = true) fs ->
    forall gs, Forall2 same_reading fs gs -> Forall (plain F b c) fs -> Forall (plain F b c) gs -> list_eqb form_eqb fs gs = true).
  { induction 1 as [|f0 fs I _ IHs]; intros gs R W V; inversion R; subst; auto.
    inversion W; inversion V; subst. cbn. apply andb_true_iff. split; eauto. }
  assert (SV : forall vs, set_eqb var_eqb vs vs = true)
    by (intros; apply (eqv_refl _ (set_eqb_equiv _ var_eqb_equiv))).
  induction f using form_ind'; intros c h R W V; inversion R; subst;
    try (match goal with X : atomic ?f _ _ |- form_eqb ?f _ = _ => inversion X; fail end);
    try (match goal with X : universal ?f _ _ |- form_eqb ?f _ = _ => inversion X; fail end).
  - inversion H; subst. inversion H0; subst; cbn [plain] in W, V; [|tauto]. cbn [form_eqb].
    rewrite String.eqb_refl. now apply plain_words.
  - cbn [plain form_eqb] in *. apply andb_true_iff. split; apply plain_word; tauto.
  - inversion H; subst. inversion H0; subst; cbn [plain] in W, V; [tauto|]. cbn [form_eqb].
    rewrite String.eqb_refl. now apply plain_words.
  - cbn [plain form_eqb] in *. now apply (plain_num_eqb b).
  - cbn [plain form_eqb] in *. apply andb_true_iff. split; [now destruct k|].
    apply (O c); auto; now apply fold_and_Forall'.
  - cbn [plain form_eqb] in *. apply andb_true_iff. split; [now destruct k|].
    apply (O c); auto; now apply fold_and_Forall'.
  - cbn [plain form_eqb] in *. eauto.
  - cbn [plain form_eqb] in *. rewrite SV. apply (IHf c); tauto.
  - inversion H; subst. inversion H0; subst; cbn [plain form_eqb] in *.
    + rewrite SV. apply (IHf c); tauto.
    + exfalso. destruct W as [W _], V as [V _]. now rewrite (W eq_refl) in V.
  - cbn [plain form_eqb] in *. apply andb_true_iff. split; [apply (IHf1 true)|apply (IHf2 c)]; tauto.
  - inversion H; subst. inversion H0; subst; cbn [plain form_eqb] in *.
    + exfalso. destruct W as [W _], V as [V _]. now rewrite (V eq_refl) in W.
    + rewrite SV. apply (IHf c); tauto.
Qed.
