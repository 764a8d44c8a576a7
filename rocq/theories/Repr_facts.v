(** repr is unambiguous up to types (C75). *)
From Coq Require Import String Ascii List Bool Arith ZArith Lia.
From Verif Require Import Py Names Reqs Logic Validation Core Show Repr.
From Verif Require Import Spec_Print Spec_Numbers Spec_Distinct Spec_Repr.
From Verif Require Import Py_facts Names_facts Logic_facts Lex_facts Distinct_facts FormText_facts.
Import ListNotations.
Open Scope string_scope.
Open Scope list_scope.

(** ** texts that end where the parentheses are closed *)
Definition opens (c : ascii) : bool := (Ascii.eqb c "(" || Ascii.eqb c "[" || Ascii.eqb c "{")%char.
Definition closes (c : ascii) : bool := (Ascii.eqb c ")" || Ascii.eqb c "]" || Ascii.eqb c "}")%char.
Definition add (c : ascii) (p : string * string) : string * string := (String c (fst p), snd p).
(** the text up to the first comma or closing parenthesis outside parentheses *)
Fixpoint cut (d : nat) (s : string) : string * string :=
  match s with
  | "" => ("", "")
  | String c r =>
      if opens c then add c (cut (S d) r)
      else if closes c then match d with O => ("", s) | S d' => add c (cut d' r) end
      else if Ascii.eqb c "," then match d with O => ("", s) | S _ => add c (cut d r) end
      else add c (cut d r)
  end.
Definition after_piece (s : string) (p : string * string) : string * string := (s +++ fst p, snd p).
Definition pass (s : string) : Prop := forall d r, cut d (s +++ r) = after_piece s (cut d r).
Definition inner (s : string) : Prop := forall d r, cut (S d) (s +++ r) = after_piece s (cut (S d) r).
Definition stops (s : string) : Prop := cut 0 s = ("", s).

Lemma after_app s t p : after_piece (s +++ t) p = after_piece s (after_piece t p).
Proof. unfold after_piece. cbn. now rewrite append_assoc. Qed.
Lemma pass_app s t : pass s -> pass t -> pass (s +++ t).
Proof. intros S T d r. now rewrite append_assoc, S, T, after_app. Qed.
Lemma inner_app s t : inner s -> inner t -> inner (s +++ t).
Proof. intros S T d r. now rewrite append_assoc, S, T, after_app. Qed.
Lemma pass_inner s : pass s -> inner s.
Proof. intros P d r. apply P. Qed.
Lemma pass_nil : pass "".
Proof. intros d r. unfold after_piece. cbn. now destruct (cut d r). Qed.
Lemma comma_inner : inner ", ".
Proof. intros d r. reflexivity. Qed.
Lemma comma_inner1 : inner ",".
Proof. intros d r. reflexivity. Qed.
Definition neutral (c : ascii) : bool := negb (opens c || closes c || Ascii.eqb c ",").
Lemma pass_chars s : (forall c, In c (list_ascii_of_string s) -> neutral c = true) -> pass s.
Proof.
  induction s as [|c s IH]; intros N; [apply pass_nil|].
  intros d r. cbn [String.append cut]. pose proof (N c (or_introl eq_refl)) as C. unfold neutral in C.
  destruct (opens c); [discriminate|]. destruct (closes c); [discriminate|]. cbn in C. destruct (Ascii.eqb c ","); [discriminate|].
  rewrite IH by (intros x X; apply N; now right). reflexivity.
Qed.
Lemma pass_paren s : inner s -> pass ("(" +++ s +++ ")").
Proof.
  intros H d r. cbn [String.append cut]. replace (opens "(") with true by reflexivity.
  rewrite append_assoc, H. cbn. unfold after_piece, add. cbn. now rewrite append_assoc.
Qed.
Lemma pass_bracket s : inner s -> pass ("[" +++ s +++ "]").
Proof.
  intros H d r. cbn [String.append cut]. replace (opens "[") with true by reflexivity.
  rewrite append_assoc, H. cbn. unfold after_piece, add. cbn. now rewrite append_assoc.
Qed.
Lemma pass_brace s : inner s -> pass ("{" +++ s +++ "}").
Proof.
  intros H d r. cbn [String.append cut]. replace (opens "{") with true by reflexivity.
  rewrite append_assoc, H. cbn. unfold after_piece, add. cbn. now rewrite append_assoc.
Qed.
Lemma inner_join l : Forall inner l -> inner (join ", " l).
Proof.
  induction 1 as [|x l X F IH]; [exact (pass_inner _ pass_nil)|]. destruct l; [exact X|].
  change (inner (x +++ ", " +++ join ", " (s :: l))). apply inner_app; auto. apply inner_app; auto. apply comma_inner.
Qed.
Lemma pass_join l : Forall pass l -> pass (join " " l).
Proof.
  assert (B : pass " ") by (apply pass_chars; cbn; intuition subst; reflexivity).
  induction 1 as [|x l X F IH]; [apply pass_nil|]. destruct l; [exact X|].
  change (pass (x +++ " " +++ join " " (s :: l))). apply pass_app; auto. apply pass_app; auto.
Qed.
Lemma pieces a b r s : pass a -> pass b -> stops r -> stops s -> a +++ r = b +++ s -> a = b /\ r = s.
Proof.
  intros A B R T E. pose proof (A 0 r) as X. pose proof (B 0 s) as Y. rewrite E, R in *. rewrite Y, T in X.
  unfold after_piece in X. cbn in X. rewrite !append_nil_r in X. injection X as -> ->. auto.
Qed.
Lemma stops_char c r : closes c = true \/ c = ","%char -> stops (String c r).
Proof.
  unfold stops. intros [H| ->]; [|reflexivity]. cbn. rewrite H. destruct (opens c) eqn:O; [|reflexivity].
  unfold opens, closes in *. rewrite !orb_true_iff in O. destruct O as [[O|O]|O]; apply Ascii.eqb_eq in O; subst; discriminate.
Qed.

(** lists of pieces, closed by a parenthesis *)
Definition piece (x : string) : Prop := pass x /\ x <> "".
Lemma piece_head x r s : piece x -> stops s -> x +++ r <> s.
Proof.
  intros [P N] C E. subst s. unfold stops in C. rewrite P in C. unfold after_piece in C. injection C as C _.
  destruct x; [congruence|discriminate].
Qed.
Definition sep (l : list string) (e : string) : string :=
  match l with [] => e | _ => ", " +++ join ", " l +++ e end.
Lemma join_cons x l e : join ", " (x :: l) +++ e = x +++ sep l e.
Proof. destruct l; [reflexivity|]. change (join ", " (x :: s :: l)) with (x +++ ", " +++ join ", " (s :: l)). now rewrite !append_assoc. Qed.
Lemma sep_stops l e : stops e -> stops (sep l e).
Proof. destruct l; auto. intros _. now apply stops_char; right. Qed.
Lemma join_pieces l : forall m c r s, closes c = true -> Forall piece l -> Forall piece m ->
  join ", " l +++ String c r = join ", " m +++ String c s -> l = m /\ r = s.
Proof.
  induction l as [|x l IH]; intros [|y m] c r s C L M E.
  - cbn in E. injection E as ->. auto.
  - exfalso. rewrite join_cons in E. inversion M; subst. symmetry in E. revert E.
    apply piece_head; auto. apply stops_char; auto.
  - exfalso. rewrite join_cons in E. inversion L; subst. revert E.
    apply piece_head; auto. apply stops_char; auto.
  - rewrite !join_cons in E. inversion L as [|? ? [X _] L']; subst. inversion M as [|? ? [Y _] M']; subst.
    apply pieces in E as [-> E]; auto using sep_stops, stops_char.
    assert (NC : closes "," = false) by reflexivity.
    destruct l as [|x' l], m as [|y' m]; cbn [sep] in E.
    + injection E as ->. auto.
    + cbn in E. injection E as E _. subst c. congruence.
    + cbn in E. injection E as E _. subst c. congruence.
    + cbn [String.append] in E. injection E as E. destruct (IH (y' :: m) c r s C L' M' E) as [F ->]. now rewrite F.
Qed.
Lemma list_pieces l m r s : Forall piece l -> Forall piece m -> repr_list l +++ r = repr_list m +++ s -> l = m /\ r = s.
Proof.
  intros L M E. unfold repr_list in E. rewrite !append_assoc in E. cbn [String.append] in E. injection E as E.
  eapply join_pieces; eauto. reflexivity.
Qed.
Lemma tuple_pieces l m r s : Forall piece l -> Forall piece m -> repr_tuple l +++ r = repr_tuple m +++ s -> l = m /\ r = s.
Proof.
  assert (G : forall x m r s, piece x -> Forall piece m -> (length m <> 1)%nat ->
    x +++ ",)" +++ r = join ", " m +++ ")" +++ s -> False).
  { intros x [|y m'] r0 s0 X M Ln E.
    - revert E. apply piece_head; auto. now apply stops_char; left.
    - change (")" +++ s0) with (String ")" s0) in E. rewrite join_cons in E. inversion M as [|? ? [Y _]]; subst.
      apply pieces in E as [-> E]; [| apply X|exact Y|now apply stops_char; right|apply sep_stops; now apply stops_char; left].
      destruct m'; [now apply Ln|]. cbn in E. discriminate. }
  assert (T1 : forall x r, repr_tuple [x] +++ r = String "(" (x +++ ",)" +++ r)).
  { intros. cbn [repr_tuple String.append]. now rewrite append_assoc. }
  assert (T2 : forall l r, (length l <> 1)%nat -> repr_tuple l +++ r = String "(" (join ", " l +++ String ")" r)).
  { intros [|x [|y l0]] r0 Ln; [reflexivity|now destruct Ln|].
    change (repr_tuple (x :: y :: l0)) with ("(" +++ join ", " (x :: y :: l0) +++ ")"). rewrite !append_assoc. reflexivity. }
  intros L M E.
  assert (C : forall k : list string, (exists x, k = [x]) \/ (length k <> 1)%nat).
  { intros [|x [|y k]]; [right; cbn; lia|left; eauto|right; cbn; lia]. }
  destruct (C l) as [[x ->]|Nl], (C m) as [[y ->]|Nm].
  - rewrite !T1 in E. apply (f_equal (fun z => match z with String _ w => w | _ => z end)) in E.
    inversion L as [|? ? [X _]]; inversion M as [|? ? [Y _]]; subst.
    apply pieces in E as [-> E]; auto; try (now apply stops_char; right). cbn in E. injection E as ->. auto.
  - exfalso. rewrite T1, T2 in E by auto. apply (f_equal (fun z => match z with String _ w => w | _ => z end)) in E.
    inversion L; subst. now apply (G x m r s).
  - exfalso. rewrite T1, T2 in E by auto. apply (f_equal (fun z => match z with String _ w => w | _ => z end)) in E.
    inversion M; subst. now apply (G y l s r).
  - rewrite !T2 in E by auto. apply (f_equal (fun z => match z with String _ w => w | _ => z end)) in E.
    now apply (join_pieces l m ")" r s).
Qed.

(** ** names, terms and printed formulas are pieces *)
Lemma identifier_pass n : identifier n -> piece n.
Proof.
  intros (c & r & -> & C & R). split; [|discriminate]. apply pass_chars. intros d [<-|D].
  - revert c C. apply Forall_forall. vm_compute. repeat constructor.
  - specialize (R d D). revert d R D. assert (F : Forall (fun x => neutral x = true) (letters ++ digits ++ dash_underscore))
      by (vm_compute; repeat constructor). rewrite Forall_forall in F. auto.
Qed.
Lemma name_piece n : legal_name n -> piece n.
Proof. intros [I _]. now apply identifier_pass. Qed.
Lemma type_pass n : legal_type n -> pass n.
Proof. intros [I _]. now apply identifier_pass. Qed.
Lemma digits_pass s : forall a z, horner a s = Some z -> pass s.
Proof.
  intros a z H. apply pass_chars. revert a H. induction s as [|c s IH]; intros a H x X; [destruct X|].
  cbn in H. destruct (digit c) as [d|] eqn:D; [|discriminate]. destruct X as [<-|X]; [|eauto].
  unfold digit in D. unfold neutral, opens, closes.
  destruct (orb _ _) eqn:O; auto. exfalso.
  repeat (apply orb_true_iff in O as [O|O]); apply Ascii.eqb_eq in O; subst; vm_compute in D; discriminate.
Qed.
Lemma dotted_piece s : dotted s -> piece s.
Proof.
  induction 1 as [s z N H|s f z D [IH N] F H]; split; auto.
  - eapply digits_pass; eauto.
  - apply pass_app; auto. apply pass_app; [|eapply digits_pass; eauto]. apply pass_chars. cbn. intuition subst; reflexivity.
  - destruct s; [congruence|discriminate].
Qed.
Lemma lit_pass s : forallb neutral (list_ascii_of_string s) = true -> pass s.
Proof. intros F. apply pass_chars. now apply forallb_forall. Qed.
Lemma paren_piece s : inner s -> piece ("(" +++ s +++ ")").
Proof. intros H. split; [now apply pass_paren|discriminate]. Qed.
Lemma term_piece t : legal_name (t_name t) -> piece (show_term t).
Proof.
  destruct t as [n g|[n g]]; cbn; intros L; [now apply name_piece|].
  split; [|discriminate]. apply (pass_app "?" n); [now apply lit_pass|]. now apply name_piece.
Qed.
Lemma qvar_pass v : legal_var v -> pass (show_qvar v).
Proof.
  intros (L & T & _). unfold show_qvar, show_var. apply pass_app.
  - apply (pass_app "?"); [now apply lit_pass|]. now apply name_piece.
  - destruct (v_tags v) as [|g gs]; [apply pass_nil|]. apply pass_app; [now apply lit_pass|]. apply pass_join.
    eapply Forall_impl; [|exact T]. apply type_pass.
Qed.
Lemma qvars_pass vs : Forall legal_var vs -> pass (join " " (map show_qvar vs)).
Proof. intros F. apply pass_join. apply Forall_map. eapply Forall_impl; [|exact F]. apply qvar_pass. Qed.
Lemma atom_pass n ts : identifier n -> Forall (fun t => legal_name (t_name t)) ts -> piece (show_atom n ts).
Proof.
  intros N F. unfold show_atom. assert (P := proj1 (identifier_pass n N)).
  assert (J : pass (join " " (map show_term ts))).
  { apply pass_join. apply Forall_map. eapply Forall_impl; [|exact F]. intros t L. now apply term_piece. }
  destruct ts as [|t ts]; [now apply paren_piece, pass_inner|].
  replace ("(" +++ n +++ " " +++ join " " (map show_term (t :: ts)) +++ ")")
    with ("(" +++ (n +++ " " +++ join " " (map show_term (t :: ts))) +++ ")") by now rewrite !append_assoc.
  apply paren_piece, pass_inner, pass_app, pass_app; auto. now apply lit_pass.
Qed.
Ltac flat := repeat progress (rewrite ?append_assoc; cbn [String.append]); reflexivity.
Lemma form_piece f : well_named f -> piece (show_form f).
Proof.
  induction f using form_ind'; cbn [well_named show_form]; intros W.
  - destruct W as [[I _] F]. now apply atom_pass.
  - destruct W as [L R]. change (piece ("(= " +++ show_term l +++ " " +++ show_term r +++ ")")).
    replace ("(= " +++ show_term l +++ " " +++ show_term r +++ ")") with ("(" +++ ("= " +++ show_term l +++ " " +++ show_term r) +++ ")")
      by (cbn; now rewrite !append_assoc).
    apply paren_piece, pass_inner. repeat apply pass_app; try (now apply lit_pass); now apply term_piece.
  - destruct W as [[I _] F]. now apply atom_pass.
  - now apply dotted_piece.
  - assert (J : pass (join " " (map show_form ops))).
    { apply pass_join, Forall_map. apply fold_and_Forall' in W. rewrite Forall_forall in *. intros x X. apply H; auto. }
    replace ("(" +++ bfun_symbol k +++ " " +++ join " " (map show_form ops) +++ ")")
      with ("(" +++ (bfun_symbol k +++ " " +++ join " " (map show_form ops)) +++ ")") by now rewrite !append_assoc.
    apply paren_piece, pass_inner. repeat apply pass_app; auto; apply lit_pass; now try destruct k.
  - assert (J : pass (join " " (map show_form ops))).
    { apply pass_join, Forall_map. apply fold_and_Forall' in W. rewrite Forall_forall in *. intros x X. apply H; auto. }
    replace ("(" +++ bop_symbol k +++ " " +++ join " " (map show_form ops) +++ ")")
      with ("(" +++ (bop_symbol k +++ " " +++ join " " (map show_form ops)) +++ ")") by now rewrite !append_assoc.
    apply paren_piece, pass_inner. repeat apply pass_app; auto; apply lit_pass; now try destruct k.
  - replace ("(not " +++ show_form f +++ ")") with ("(" +++ ("not " +++ show_form f) +++ ")") by (cbn; now rewrite ?append_assoc).
    apply paren_piece, pass_inner, pass_app; [now apply lit_pass|]. now apply IHf.
  - destruct W as [V W]. replace ("(" +++ quant_symbol q +++ " (" +++ join " " (map show_qvar vs) +++ ") " +++ show_form f +++ ")")
      with ("(" +++ (quant_symbol q +++ " " +++ ("(" +++ join " " (map show_qvar vs) +++ ")") +++ " " +++ show_form f) +++ ")")
      by flat.
    apply paren_piece, pass_inner. apply pass_app; [apply lit_pass; now destruct q|].
    apply pass_app; [now apply lit_pass|]. apply pass_app; [now apply pass_paren, pass_inner, qvars_pass|].
    apply pass_app; [now apply lit_pass|]. now apply IHf.
  - destruct W as [W1 W2]. replace ("(when " +++ show_form f1 +++ " " +++ show_form f2 +++ ")")
      with ("(" +++ ("when " +++ show_form f1 +++ " " +++ show_form f2) +++ ")") by (cbn; now rewrite !append_assoc).
    apply paren_piece, pass_inner. repeat apply pass_app; try (now apply lit_pass); [now apply IHf1|now apply IHf2].
  - destruct W as [V W]. rewrite params_qvars by auto.
    replace ("(forall (" +++ join " " (map show_qvar vs) +++ ") " +++ show_form f +++ ")")
      with ("(" +++ ("forall " +++ ("(" +++ join " " (map show_qvar vs) +++ ")") +++ " " +++ show_form f) +++ ")")
      by flat.
    apply paren_piece, pass_inner. apply pass_app; [now apply lit_pass|].
    apply pass_app; [now apply pass_paren, pass_inner, qvars_pass|].
    apply pass_app; [now apply lit_pass|]. now apply IHf.
Qed.

(** ** reprs *)
Lemma class_paren c s : forallb neutral (list_ascii_of_string c) = true -> inner s -> piece (c +++ "(" +++ s +++ ")").
Proof.
  intros C H. split; [apply pass_app; [now apply lit_pass|now apply pass_paren]|]. destruct c; discriminate.
Qed.
Lemma repr_term_piece t : legal_name (t_name t) -> piece (repr_term t).
Proof.
  destruct t as [n g|[n g]]; cbn [repr_term repr_var t_name v_name]; intros L; apply pass_inner, name_piece in L || idtac.
  - apply (class_paren "Constant" n); [reflexivity|]. apply pass_inner. now apply name_piece.
  - apply (class_paren "Variable" n); [reflexivity|]. apply pass_inner. now apply name_piece.
Qed.
Lemma repr_var_piece v : legal_name (v_name v) -> piece (repr_var v).
Proof. exact (repr_term_piece (TVar v)). Qed.
Lemma atom_inner n ts : identifier n -> Forall (fun t => legal_name (t_name t)) ts ->
  inner (n +++ ", " +++ join ", " (map show_term ts)).
Proof.
  intros N F. apply inner_app; [now apply pass_inner, identifier_pass|]. apply inner_app; [apply comma_inner|].
  apply inner_join, Forall_map. eapply Forall_impl; [|exact F]. intros t L. now apply pass_inner, term_piece.
Qed.
Lemma repr_atom_eq c n ts : c +++ repr_atom n ts = c +++ "(" +++ (n +++ ", " +++ join ", " (map show_term ts)) +++ ")".
Proof. unfold repr_atom. now rewrite !append_assoc. Qed.
Lemma frozenset_pass l : Forall piece l -> pass (repr_frozenset l).
Proof.
  intros F. destruct l as [|x l]; cbn [repr_frozenset].
  - apply (class_paren "frozenset" ""); [reflexivity|]. apply pass_inner, pass_nil.
  - replace ("frozenset({" +++ join ", " (x :: l) +++ "})") with ("frozenset" +++ "(" +++ ("{" +++ join ", " (x :: l) +++ "}") +++ ")") by flat.
    apply class_paren; [reflexivity|]. apply pass_inner, pass_brace, inner_join. eapply Forall_impl; [|exact F].
    intros y [P _]. now apply pass_inner.
Qed.
(** the reprs of operands *)
Fixpoint reprs (addr : list nat -> string) (i : nat) (l : list form) : list string :=
  match l with [] => [] | g :: r => repr_form (fun p => addr (i :: p)) g :: reprs addr (S i) r end.
Lemma repr_binfun addr k ops : repr_form addr (FBinFun k ops) = bfun_class k +++ "(" +++ repr_tuple (reprs addr 0 ops) +++ ")".
Proof. cbn [repr_form]. do 4 f_equal. generalize 0. induction ops as [|f fs IH]; intros i; [reflexivity|]. cbn. now rewrite IH. Qed.
Lemma repr_bin addr k ops : repr_form addr (FBin k ops) = bop_class k +++ "(" +++ repr_list (reprs addr 0 ops) +++ ")".
Proof. cbn [repr_form]. do 4 f_equal. generalize 0. induction ops as [|f fs IH]; intros i; [reflexivity|]. cbn. now rewrite IH. Qed.
Lemma tuple_inner l : Forall piece l -> inner (repr_tuple l).
Proof.
  intros F. assert (J : inner (join ", " l)).
  { apply inner_join. eapply Forall_impl; [|exact F]. intros y [P _]. now apply pass_inner. }
  apply pass_inner. destruct l as [|x [|y l]]; [now apply (pass_paren "")| |now apply pass_paren].
  cbn [repr_tuple]. replace ("(" +++ x +++ ",)") with ("(" +++ (x +++ ",") +++ ")") by flat.
  apply pass_paren, inner_app; [|apply comma_inner1]. inversion F as [|? ? [P _]]; subst. now apply pass_inner.
Qed.
Lemma list_inner l : Forall piece l -> inner (repr_list l).
Proof.
  intros F. apply pass_inner, pass_bracket, inner_join. eapply Forall_impl; [|exact F]. intros y [P _]. now apply pass_inner.
Qed.
Lemma repr_piece f : forall addr, well_named f -> no_bare_number f -> piece (repr_form addr f).
Proof.
  assert (RS : forall ops, Forall (fun f => forall addr, well_named f -> no_bare_number f -> piece (repr_form addr f)) ops ->
    Forall well_named ops -> Forall no_bare_number ops -> forall addr i, Forall piece (reprs addr i ops)).
  { induction 1 as [|f0 fs H F IH]; intros W N addr i; cbn; constructor; inversion W; inversion N; subst; auto. }
  induction f using form_ind'; intros addr W NB; cbn [well_named no_bare_number] in W, NB; try destruct NB.
  - destruct W as [[I _] F]. cbn [repr_form]. rewrite repr_atom_eq. apply class_paren; [reflexivity|]. now apply atom_inner.
  - destruct W as [L R]. cbn [repr_form].
    replace ("EqualTo(" +++ repr_term l +++ ", " +++ repr_term r +++ ")")
      with ("EqualTo" +++ "(" +++ (repr_term l +++ ", " +++ repr_term r) +++ ")") by flat.
    apply class_paren; [reflexivity|]. apply inner_app; [now apply pass_inner, repr_term_piece|].
    apply inner_app; [apply comma_inner|]. now apply pass_inner, repr_term_piece.
  - destruct W as [[I _] F]. cbn [repr_form]. rewrite repr_atom_eq. apply class_paren; [reflexivity|]. now apply atom_inner.
  - rewrite repr_binfun. apply class_paren; [now destruct k|]. apply tuple_inner.
    apply fold_and_Forall' in W. apply fold_and_Forall' in NB. auto.
  - rewrite repr_bin. apply class_paren; [now destruct k|]. apply list_inner.
    apply fold_and_Forall' in W. apply fold_and_Forall' in NB. auto.
  - cbn [repr_form]. apply (class_paren "Not"); [reflexivity|]. now apply pass_inner, IHf.
  - destruct W as [V W]. cbn [repr_form].
    replace (quant_class q +++ "(" +++ repr_frozenset (map repr_var vs) +++ ", " +++ show_form f +++ ")")
      with (quant_class q +++ "(" +++ (repr_frozenset (map repr_var vs) +++ ", " +++ show_form f) +++ ")") by flat.
    apply class_paren; [now destruct q|]. apply inner_app.
    { apply pass_inner, frozenset_pass, Forall_map. eapply Forall_impl; [|exact V]. intros v [L _]. now apply repr_var_piece. }
    apply inner_app; [apply comma_inner|]. now apply pass_inner, form_piece.
  - destruct W as [W1 W2]. cbn [repr_form].
    replace ("When(" +++ show_form f1 +++ ", " +++ show_form f2 +++ ")")
      with ("When" +++ "(" +++ (show_form f1 +++ ", " +++ show_form f2) +++ ")") by flat.
    apply class_paren; [reflexivity|]. apply inner_app; [now apply pass_inner, form_piece|].
    apply inner_app; [apply comma_inner|]. now apply pass_inner, form_piece.
  - destruct W as [V W]. cbn [repr_form].
    replace ("Forall(" +++ repr_frozenset (map repr_var vs) +++ ", " +++ show_form f +++ ")")
      with ("Forall" +++ "(" +++ (repr_frozenset (map repr_var vs) +++ ", " +++ show_form f) +++ ")") by flat.
    apply class_paren; [reflexivity|]. apply inner_app.
    { apply pass_inner, frozenset_pass, Forall_map. eapply Forall_impl; [|exact V]. intros v [L _]. now apply repr_var_piece. }
    apply inner_app; [apply comma_inner|]. now apply pass_inner, form_piece.
Qed.

(** ** the same repr *)
Lemma word_iff t u : legal_name (t_name t) -> legal_name (t_name u) -> show_term t = show_term u <-> same_word t u.
Proof.
  assert (Q : forall n m, legal_name n -> n <> "?" +++ m).
  { intros n m [(c & r & -> & C & _) _] E. cbn in E. injection E as -> _. vm_compute in C. intuition discriminate. }
  intros T U. split; [|destruct 1; reflexivity].
  destruct t as [n g|[n g]], u as [m h|[m h]]; cbn in *; intros E.
  - subst. constructor.
  - now destruct (Q n m).
  - now destruct (Q m n).
  - injection E as ->. constructor.
Qed.
Lemma repr_word_iff t u : legal_name (t_name t) -> legal_name (t_name u) -> repr_term t = repr_term u <-> same_word t u.
Proof.
  intros T U. split; [|destruct 1; reflexivity].
  destruct t as [n g|[n g]], u as [m h|[m h]]; cbn in *; intros E; try discriminate.
  - injection E as E. apply pieces in E as [-> _]; try constructor; try (now apply name_piece); now apply stops_char; left.
  - injection E as E. apply pieces in E as [-> _]; try constructor; try (now apply name_piece); now apply stops_char; left.
Qed.
Lemma words_iff ts : forall us, Forall (fun t => legal_name (t_name t)) ts -> Forall (fun t => legal_name (t_name t)) us ->
  map show_term ts = map show_term us <-> Forall2 same_word ts us.
Proof.
  induction ts as [|t ts IH]; intros [|u us] T U.
  - split; [constructor|reflexivity].
  - split; intros X; [discriminate|inversion X].
  - split; intros X; [discriminate|inversion X].
  - inversion T; inversion U; subst. cbn. split; intros X.
    + injection X as X1 X2. constructor; [now apply word_iff|now apply IH].
    + inversion X; subst. f_equal; [now apply word_iff|now apply IH].
Qed.
Lemma terms_pieces ts : Forall (fun t => legal_name (t_name t)) ts -> Forall piece (map show_term ts).
Proof. intros F. apply Forall_map. eapply Forall_impl; [|exact F]. intros t. apply term_piece. Qed.
Lemma repr_atom_iff n ts m us : identifier n -> identifier m ->
  Forall (fun t => legal_name (t_name t)) ts -> Forall (fun t => legal_name (t_name t)) us ->
  repr_atom n ts = repr_atom m us <-> n = m /\ Forall2 same_word ts us.
Proof.
  intros N M T U. unfold repr_atom. split.
  - intros E. cbn [String.append] in E. injection E as E. apply pieces in E as [-> E];
      try (now apply identifier_pass); try (now apply stops_char; right).
    injection E as E. apply join_pieces in E as [E _]; auto using terms_pieces. split; auto. now apply words_iff.
  - intros [-> F]. apply words_iff in F; auto. now rewrite F.
Qed.
Lemma vars_repr vs ws : Forall legal_var vs -> Forall legal_var ws ->
  repr_frozenset (map repr_var vs) = repr_frozenset (map repr_var ws) <-> map v_name vs = map v_name ws.
Proof.
  intros V W.
  assert (P : forall vs, Forall legal_var vs -> Forall piece (map repr_var vs)).
  { intros us F. apply Forall_map. eapply Forall_impl; [|exact F]. intros v [L _]. now apply repr_var_piece. }
  assert (M : map repr_var vs = map repr_var ws <-> map v_name vs = map v_name ws).
  { clear P. revert ws W. induction V as [|v vs [L _] V IH]; intros [|w ws] W; try (split; intros X; discriminate || reflexivity).
    inversion W as [|? ? [L' _] W']; subst. cbn [map]. split; intros X; injection X as X1 X2.
    - f_equal; [|now apply IH]. apply pieces in X1 as [X1 _]; auto; try (now apply name_piece); now apply stops_char; left.
    - f_equal; [|now apply IH]. unfold repr_var. now rewrite X1. }
  split; intros E; [|now rewrite (proj2 M E)]. apply M. revert E. generalize (P vs V) (P ws W).
  generalize (map repr_var vs) (map repr_var ws). intros l m L K E.
  destruct l as [|x l], m as [|y m]; auto; try discriminate. cbn [repr_frozenset] in E.
  change ("frozenset({" +++ (join ", " (x :: l) +++ String "}" ")") = "frozenset({" +++ (join ", " (y :: m) +++ String "}" ")")) in E.
  revert E. generalize (x :: l) (y :: m) L K. clear. intros l m L K E.
  cbn [String.append] in E. injection E as E. now apply join_pieces in E as [E _].
Qed.
Lemma reading_iff f g : well_named f -> well_named g -> (show_form f = show_form g <-> same_reading f g).
Proof. exact (same_text_iff f g). Qed.

(** the class and what is between the outer parentheses *)
Definition class_of (f : form) : string :=
  match f with
  | FPred _ _ => "Predicate" | FEq _ _ => "EqualTo" | FNumFun _ _ => "NumericFunction" | FNumVal _ => "<"
  | FBinFun k _ => bfun_class k | FBin k _ => bop_class k | FNot _ => "Not" | FQuant q _ _ => quant_class q
  | FWhen _ _ => "When" | FForall _ _ => "Forall"
  end.
Definition args_of (addr : list nat -> string) (f : form) : string :=
  match f with
  | FPred n ts | FNumFun n ts => n +++ ", " +++ join ", " (map show_term ts)
  | FEq l r => repr_term l +++ ", " +++ repr_term r
  | FNumVal _ => ""
  | FBinFun _ ops => repr_tuple (reprs addr 0 ops)
  | FBin _ ops => repr_list (reprs addr 0 ops)
  | FNot g => repr_form (fun p => addr (0 :: p)) g
  | FQuant _ vs c | FForall vs c => repr_frozenset (map repr_var vs) +++ ", " +++ show_form c
  | FWhen c e => show_form c +++ ", " +++ show_form e
  end.
Lemma repr_class addr f : no_bare_number f -> repr_form addr f = class_of f +++ String "(" (args_of addr f +++ ")").
Proof.
  destruct f; intros N; try destruct N; cbn [class_of args_of]; try (cbn [repr_form]; unfold repr_atom; flat).
  - rewrite repr_binfun. reflexivity.
  - rewrite repr_bin. reflexivity.
Qed.
Lemma head_inj a : forall b x y, ~ In "("%char (list_ascii_of_string a) -> ~ In "("%char (list_ascii_of_string b) ->
  a +++ String "(" x = b +++ String "(" y -> a = b /\ x = y.
Proof.
  induction a as [|c a IH]; intros [|d b] x y A B E; cbn in E.
  - injection E as ->. auto.
  - exfalso. injection E as <- _. apply B. now left.
  - exfalso. injection E as -> _. apply A. now left.
  - injection E as -> E. destruct (IH b x y) as [-> ->]; auto; intros I; [apply A|apply B]; now right.
Qed.
Lemma class_no_paren f : ~ In "("%char (list_ascii_of_string (class_of f)).
Proof.
  destruct f; try destruct k; try destruct q; vm_compute; intuition discriminate.
Qed.
Lemma append_same_r a : forall b c, a +++ c = b +++ c -> a = b.
Proof.
  intros b c E. apply (f_equal list_ascii_of_string) in E.
  assert (L : forall x y, list_ascii_of_string (x +++ y) = list_ascii_of_string x ++ list_ascii_of_string y).
  { induction x; cbn; intros; [reflexivity|now f_equal]. }
  rewrite !L in E. apply app_inv_tail in E. rewrite <- (string_of_list_ascii_of_string a), E.
  apply string_of_list_ascii_of_string.
Qed.
Lemma append_same_l a : forall b c, a +++ b = a +++ c -> b = c.
Proof. induction a; cbn; intros b c E; auto. injection E as E. auto. Qed.
Lemma repr_iff f : forall addr addr' g, well_named f -> well_named g -> no_bare_number f -> no_bare_number g ->
  (repr_form addr f = repr_form addr' g <-> same_repr f g).
Proof.
  assert (RS : forall ops, Forall (fun f => forall addr addr' g, well_named f -> well_named g -> no_bare_number f -> no_bare_number g ->
      (repr_form addr f = repr_form addr' g <-> same_repr f g)) ops ->
    Forall well_named ops -> Forall no_bare_number ops -> forall ops', Forall well_named ops' -> Forall no_bare_number ops' ->
    forall addr addr' i j, reprs addr i ops = reprs addr' j ops' <-> Forall2 same_repr ops ops').
  { induction 1 as [|f0 fs H F IH]; intros W N [|g gs] W' N' addr addr' i j; cbn; try (split; intros X; inversion X; fail).
    - split; auto.
    - inversion W; inversion N; inversion W'; inversion N'; subst. split; intros X.
      + injection X as X1 X2. constructor; [eapply H; eauto|eapply IH; eauto].
      + inversion X; subst. f_equal; [eapply H; eauto|eapply IH; eauto]. }
  assert (PS : forall ops, Forall well_named ops -> Forall no_bare_number ops -> forall addr i, Forall piece (reprs addr i ops)).
  { induction ops as [|f0 fs IH]; intros W N addr i; cbn; constructor; inversion W; inversion N; subst; auto using repr_piece. }
  assert (TU : forall l m, Forall piece l -> Forall piece m -> repr_tuple l = repr_tuple m -> l = m).
  { intros l m L M E. apply (tuple_pieces l m "" ""); auto. now rewrite !append_nil_r. }
  assert (LI : forall l m, Forall piece l -> Forall piece m -> repr_list l = repr_list m -> l = m).
  { intros l m L M E. apply (list_pieces l m "" ""); auto. now rewrite !append_nil_r. }
  assert (CM : forall a b x y, pass a -> pass b -> a +++ ", " +++ x = b +++ ", " +++ y -> a = b /\ x = y).
  { intros a b x y A B E. apply pieces in E as [-> E]; auto; try (now apply stops_char; right). injection E as ->. auto. }
  assert (VP : forall vs, Forall legal_var vs -> pass (repr_frozenset (map repr_var vs))).
  { intros vs V. apply frozenset_pass, Forall_map. eapply Forall_impl; [|exact V]. intros v [L _]. now apply repr_var_piece. }
  assert (EQ : forall l r ops addr, legal_name (t_name l) -> repr_term l +++ r = repr_tuple (reprs addr 0 ops) -> False).
  { intros l r ops a L E. destruct l as [|[]], (reprs a 0 ops) as [|? []]; discriminate. }
  induction f using form_ind'; intros addr addr' g W W' N N'; cbn [well_named no_bare_number] in W, N; try destruct N;
    rewrite !repr_class by (auto; cbn; auto); split; intros E;
    try (apply head_inj in E as [C E]; auto using class_no_paren; apply append_same_r in E; cbn [class_of] in C).
  - destruct g; try destruct k; try destruct q; try discriminate C. cbn in W'. destruct W as [[I _] F], W' as [[I' _] F'].
    cbn [args_of] in E. apply CM in E as [-> E]; try (now apply identifier_pass). constructor. apply words_iff; auto.
    apply (join_pieces _ _ ")" "" ""); auto using terms_pieces. now rewrite E.
  - inversion E as [? ? ? F| | | | | | | |]; subst. cbn in W'. cbn [class_of args_of]. apply words_iff in F; try apply W; try apply W'. now rewrite F.
  - destruct g; try destruct k; try destruct q; try discriminate C.
    + cbn in W'. destruct W as [L R], W' as [L' R']. cbn [args_of] in E. apply CM in E as [E1 E2]; try (now apply repr_term_piece).
      constructor; now apply repr_word_iff.
    + exfalso. cbn [args_of] in E. eapply EQ; [|exact E]. apply W.
  - inversion E as [| |? ? ? ? X Y| | | | | |]; subst. cbn in W'. cbn [class_of args_of].
    destruct W, W'. apply repr_word_iff in X, Y; auto. now rewrite X, Y.
  - destruct g; try destruct k; try destruct q; try discriminate C. cbn in W'. destruct W as [[I _] F], W' as [[I' _] F'].
    cbn [args_of] in E. apply CM in E as [-> E]; try (now apply identifier_pass). constructor. apply words_iff; auto.
    apply (join_pieces _ _ ")" "" ""); auto using terms_pieces. now rewrite E.
  - inversion E as [|? ? ? F| | | | | | |]; subst. cbn in W'. cbn [class_of args_of]. apply words_iff in F; try apply W; try apply W'. now rewrite F.
  - assert (X : (exists ops', g = FBinFun k ops') \/ exists l r, g = FEq l r).
    { destruct g; try destruct k; try destruct k0; try destruct q; try discriminate C; eauto. }
    destruct X as [[ops' ->]|(l & r & ->)].
    + cbn [args_of] in E. cbn in W', N'. rewrite fold_and_Forall' in *. apply TU in E; auto. constructor. eapply RS; eauto.
    + exfalso. cbn [args_of] in E. symmetry in E. eapply EQ; [|exact E]. apply W'.
  - inversion E as [| | |? ? gs F| | | | |]; subst. cbn in W', N'. rewrite fold_and_Forall' in *. cbn [class_of args_of].
    rewrite (proj2 (RS ops H W N gs W' N' addr addr' 0 0) F). reflexivity.
  - assert (X : exists ops', g = FBin k ops').
    { destruct g; try destruct k; try destruct k0; try destruct q; try discriminate C; eauto. }
    destruct X as [ops' ->].
    cbn [args_of] in E. cbn in W', N'. rewrite fold_and_Forall' in *. apply LI in E; auto. constructor. eapply RS; eauto.
  - inversion E as [| | | |? ? gs F| | | |]; subst. cbn in W', N'. rewrite fold_and_Forall' in *. cbn [class_of args_of].
    rewrite (proj2 (RS ops H W N gs W' N' addr addr' 0 0) F). reflexivity.
  - destruct g; try destruct k; try destruct q; try discriminate C. constructor. eapply IHf; eauto.
  - inversion E; subst. cbn [class_of args_of]. do 3 f_equal. apply IHf; auto.
  - assert (X : exists ws d, g = FQuant q ws d).
    { destruct g; try destruct k; try destruct q; try destruct q0; try discriminate C; eauto. }
    destruct X as (ws & d & ->). destruct W as [V W], W' as [V' W']. cbn [args_of] in E. apply CM in E as [E1 E2]; auto.
    constructor; [now apply vars_repr|now apply reading_iff].
  - inversion E as [| | | | | |? ? ws ? d X Y| |]; subst. destruct W as [V W], W' as [V' W']. cbn [class_of args_of].
    apply vars_repr in X; auto. apply reading_iff in Y; auto. now rewrite X, Y.
  - destruct g; try destruct k; try destruct q; try discriminate C. destruct W as [V W], W' as [V' W'].
    cbn [args_of] in E. apply CM in E as [E1 E2]; try (now apply form_piece). constructor; now apply reading_iff.
  - inversion E as [| | | | | | |? ? ? ? X Y|]; subst. destruct W as [V W], W' as [V' W']. cbn [class_of args_of].
    apply reading_iff in X, Y; auto. now rewrite X, Y.
  - destruct g; try destruct k; try destruct q; try discriminate C. destruct W as [V W], W' as [V' W'].
    cbn [args_of] in E. apply CM in E as [E1 E2]; auto.
    constructor; [now apply vars_repr|now apply reading_iff].
  - inversion E as [| | | | | | | |? ws ? d X Y]; subst. destruct W as [V W], W' as [V' W']. cbn [class_of args_of].
    apply vars_repr in X; auto. apply reading_iff in Y; auto. now rewrite X, Y.
Qed.

(** ** equality *)
Lemma word_equal t u : same_word t u -> plain_term t -> plain_term u -> term_eqb t u = true.
Proof.
  destruct 1; cbn; intros T U; [apply String.eqb_refl|]. unfold var_eqb. cbn in *. rewrite T, U, String.eqb_refl. reflexivity.
Qed.
Lemma words_equal ts us : Forall2 same_word ts us -> Forall plain_term ts -> Forall plain_term us -> list_eqb term_eqb ts us = true.
Proof.
  induction 1; cbn; auto. intros T U. inversion T; inversion U; subst. rewrite word_equal by auto. cbn. auto.
Qed.
Lemma names_equal vs : forall ws, map v_name vs = map v_name ws -> Forall (fun v => v_tags v = []) vs ->
  Forall (fun v => v_tags v = []) ws -> vs = ws.
Proof.
  induction vs as [|[n g] vs IH]; intros [|[m h] ws] E V W; auto; try discriminate.
  cbn in E. injection E as -> E. inversion V; inversion W; subst. cbn in *. subst. f_equal. auto.
Qed.
Lemma repr_equal funs texts cond f : forall g, plain funs texts cond f -> plain funs texts cond g -> bound_untyped f -> bound_untyped g ->
  same_repr f g -> form_eqb f g = true.
Proof.
  assert (VR : forall vs, set_eqb var_eqb vs vs = true) by (intros vs; apply (eqv_refl _ (set_eqb_equiv var_eqb var_eqb_equiv))).
  assert (RS : forall ops, Forall (fun f => forall g, plain funs texts cond f -> plain funs texts cond g -> bound_untyped f -> bound_untyped g ->
      same_repr f g -> form_eqb f g = true) ops -> Forall (plain funs texts cond) ops -> Forall bound_untyped ops ->
      forall ops', Forall (plain funs texts cond) ops' -> Forall bound_untyped ops' -> Forall2 same_repr ops ops' -> list_eqb form_eqb ops ops' = true).
  { induction 1 as [|f0 fs H F IH]; intros P B [|g gs] P' B' R; inversion R; subst; auto.
    inversion P; inversion B; inversion P'; inversion B'; subst. cbn. rewrite H by auto. cbn. now apply IH. }
  induction f using form_ind'; intros g P P' B B' R; inversion R; subst; cbn [plain bound_untyped form_eqb] in *.
  - rewrite String.eqb_refl. cbn. apply words_equal; tauto.
  - rewrite !word_equal by tauto. reflexivity.
  - rewrite String.eqb_refl. cbn. apply words_equal; tauto.
  - rewrite fold_and_Forall' in *. replace (bfun_eqb k k) with true by now destruct k. cbn. now apply RS.
  - rewrite fold_and_Forall' in *. replace (bop_eqb k k) with true by now destruct k. cbn. now apply RS.
  - auto.
  - rewrite (names_equal vs ws) by auto. replace (quant_eqb q q) with true by now destruct q. rewrite VR. cbn.
    apply (reading_equal funs texts _ cond); tauto.
  - destruct P, P'. apply andb_true_iff. split; eapply reading_equal; eauto.
  - rewrite (names_equal vs ws) by auto. rewrite VR. cbn. apply (reading_equal funs texts _ cond); tauto.
Qed.
Lemma equal_word t u : term_eqb t u = true -> same_word t u.
Proof.
  destruct t as [n g|[n g]], u as [m h|[m h]]; cbn; try discriminate; intros E.
  - apply String.eqb_eq in E. subst. constructor.
  - unfold var_eqb in E. cbn in E. apply andb_true_iff in E as [E _]. apply String.eqb_eq in E. subst. constructor.
Qed.
Lemma equal_words ts : forall us, list_eqb term_eqb ts us = true -> Forall2 same_word ts us.
Proof.
  induction ts as [|t ts IH]; intros [|u us]; cbn; try discriminate; intros E; constructor; apply andb_true_iff in E as []; auto using equal_word.
Qed.
Lemma equal_repr f : forall g, no_sets f -> form_eqb f g = true -> same_repr f g.
Proof.
  assert (RS : forall ops, Forall (fun f => forall g, no_sets f -> form_eqb f g = true -> same_repr f g) ops -> Forall no_sets ops ->
     forall ops', list_eqb form_eqb ops ops' = true -> Forall2 same_repr ops ops').
  { induction 1 as [|f0 fs H F IH]; intros N [|g gs] E; cbn in E; try discriminate; constructor; apply andb_true_iff in E as []; inversion N; subst; auto. }
  induction f using form_ind'; intros g N E; cbn [no_sets] in N; try (now destruct N); destruct g; cbn in E; try discriminate.
  - apply andb_true_iff in E as [E1 E2]. apply String.eqb_eq in E1. subst. constructor. now apply equal_words.
  - apply andb_true_iff in E as [E1 E2]. constructor; now apply equal_word.
  - apply andb_true_iff in E as [E1 E2]. apply String.eqb_eq in E1. subst. constructor. now apply equal_words.
  - apply andb_true_iff in E as [E1 E2]. assert (k0 = k) as -> by (destruct k, k0; easy). constructor. apply RS; auto. now apply fold_and_Forall'.
  - apply andb_true_iff in E as [E1 E2]. assert (k0 = k) as -> by (destruct k, k0; easy). constructor. apply RS; auto. now apply fold_and_Forall'.
  - constructor. auto.
Qed.
Lemma no_sets_bare f : no_sets f -> no_bare_number f.
Proof.
  induction f using form_ind'; cbn; auto; intros N.
  - apply fold_and_Forall' in N. apply fold_and_Forall'. rewrite Forall_forall in *. auto.
  - apply fold_and_Forall' in N. apply fold_and_Forall'. rewrite Forall_forall in *. auto.
Qed.

(** ** actions *)
Lemma body_iff o p : named_body o -> named_body p -> (show_opt_form o = show_opt_form p <-> same_body o p).
Proof.
  assert (X : forall f, well_named f -> show_form f <> "None").
  { intros f W E. assert (Y : exists c r, show_form f = String c r /\ (c = "("%char \/ digit c <> None)).
    { destruct f; cbn [show_form well_named] in *; try (eexists; eexists; split; [reflexivity|now left]).
      - unfold show_atom. destruct ts; eexists; eexists; (split; [reflexivity|now left]).
      - unfold show_atom. destruct ts; eexists; eexists; (split; [reflexivity|now left]).
      - clear E. induction W as [s z N H|s f z D (c & r & -> & C) F H].
        + destruct s as [|c r]; [congruence|]. exists c, r. split; auto. right. cbn in H. now destruct (digit c).
        + exists c, (r +++ "." +++ f). auto. }
    destruct Y as (c & r & Y & C). rewrite Y in E. injection E as -> _. destruct C as [C|C]; [discriminate|now apply C]. }
  destruct o as [f|], p as [g|]; cbn; intros F G.
  - split; intros E; [constructor; now apply reading_iff|inversion E; subst; now apply reading_iff].
  - split; intros E; [now destruct (X f F)|inversion E].
  - split; intros E; [symmetry in E; now destruct (X g G)|inversion E].
  - split; intros _; [constructor|reflexivity].
Qed.
Definition params_pieces (ts : list term) : list string :=
  match map show_term ts with [] => ["parameters="] | x :: l => ("parameters=" +++ x) :: l end.
Lemma body_piece k o : forallb neutral (list_ascii_of_string k) = true -> k <> "" -> named_body o -> piece (k +++ show_opt_form o).
Proof.
  intros K N W. split; [|destruct k; [congruence|discriminate]]. apply pass_app; [now apply lit_pass|].
  destruct o; [now apply form_piece|now apply lit_pass].
Qed.
Lemma repr_action_pieces a : repr_action a =
  "Action(" +++ join ", " (a_name a :: params_pieces (a_params a) ++
     ["precondition=" +++ show_opt_form (a_pre a); "effect=" +++ show_opt_form (a_eff a)]) +++ ")".
Proof.
  assert (J : forall l m e, m <> [] -> l <> [] -> join ", " (l ++ m) +++ e = join ", " l +++ ", " +++ join ", " m +++ e).
  { induction l as [|x l IH]; intros m e M L; [congruence|]. destruct l as [|y l].
    - destruct m; [congruence|]. cbn [app join]. flat.
    - change (join ", " ((x :: y :: l) ++ m)) with (x +++ ", " +++ join ", " ((y :: l) ++ m)).
      change (join ", " (x :: y :: l)) with (x +++ ", " +++ join ", " (y :: l)).
      rewrite !append_assoc. rewrite IH by (auto; discriminate). reflexivity. }
  unfold repr_action, params_pieces. destruct (map show_term (a_params a)) as [|x l].
  - cbn [join app]. flat.
  - change (join ", " (a_name a :: ((("parameters=" +++ x) :: l) ++ ["precondition=" +++ show_opt_form (a_pre a); "effect=" +++ show_opt_form (a_eff a)])))
      with (a_name a +++ ", " +++ join ", " ((("parameters=" +++ x) :: l) ++ ["precondition=" +++ show_opt_form (a_pre a); "effect=" +++ show_opt_form (a_eff a)])).
    rewrite !append_assoc, J by discriminate. destruct l; cbn [join]; flat.
Qed.
Lemma app_inj_tail2 (p q : list string) a b c d : p ++ [a; b] = q ++ [c; d] -> p = q /\ a = c /\ b = d.
Proof.
  intros E. change [a; b] with ([a] ++ [b]) in E. change [c; d] with ([c] ++ [d]) in E. rewrite !app_assoc in E.
  apply app_inj_tail in E as [E ->]. apply app_inj_tail in E as [-> ->]. auto.
Qed.
Lemma action_iff a b : action_named a -> action_named b ->
  (repr_action a = repr_action b <->
   a_name a = a_name b /\ Forall2 same_word (a_params a) (a_params b) /\ same_body (a_pre a) (a_pre b) /\ same_body (a_eff a) (a_eff b)).
Proof.
  assert (PP : forall ts, Forall (fun t => legal_name (t_name t)) ts -> Forall piece (params_pieces ts)).
  { intros ts F. unfold params_pieces. pose proof (terms_pieces ts F) as T. destruct (map show_term ts) as [|x l].
    - constructor; [|constructor]. split; [now apply lit_pass|discriminate].
    - inversion T as [|? ? [P _]]; subst. constructor; auto. split; [|discriminate]. apply pass_app; [now apply lit_pass|auto]. }
  intros (A1 & A2 & A3 & A4) (B1 & B2 & B3 & B4). split.
  - intros E. rewrite !repr_action_pieces in E. cbn [String.append] in E.
    apply (f_equal (fun z => match z with String _ (String _ (String _ (String _ (String _ (String _ (String _ w)))))) => w | _ => z end)) in E.
    apply join_pieces in E as [E _]; try reflexivity.
    + injection E as E1 E2. split; auto.
      apply app_inj_tail2 in E2 as (E2 & E3 & E4).
      cbn [String.append] in E3, E4. injection E3 as E3. injection E4 as E4. split; [|split; apply body_iff; auto].
      apply words_iff; auto. unfold params_pieces in E2.
      pose proof (terms_pieces _ A2) as TA. pose proof (terms_pieces _ B2) as TB.
      destruct (map show_term (a_params a)) as [|x l], (map show_term (a_params b)) as [|y m]; auto.
      * injection E2 as E2 _. inversion TB as [|? ? [_ X]]; subst. congruence.
      * injection E2 as E2 _. inversion TA as [|? ? [_ X]]; subst. congruence.
      * injection E2 as -> ->. reflexivity.
    + constructor; [now apply name_piece|]. apply Forall_app. split; [now apply PP|]. constructor; [|constructor; [|constructor]];
        [apply (body_piece "precondition=")|apply (body_piece "effect=")]; auto; discriminate.
    + constructor; [now apply name_piece|]. apply Forall_app. split; [now apply PP|]. constructor; [|constructor; [|constructor]];
        [apply (body_piece "precondition=")|apply (body_piece "effect=")]; auto; discriminate.
  - intros (N & P & X & Y). unfold repr_action. apply words_iff in P; auto. apply body_iff in X, Y; auto. now rewrite N, P, X, Y.
Qed.

Lemma derived_iff addr addr' a b : legal_name (dp_name a) -> legal_name (dp_name b) ->
  Forall (fun t => legal_name (t_name t)) (dp_terms a) -> Forall (fun t => legal_name (t_name t)) (dp_terms b) ->
  well_named (dp_cond a) -> well_named (dp_cond b) -> no_bare_number (dp_cond a) -> no_bare_number (dp_cond b) ->
  (repr_derived addr a = repr_derived addr' b <->
   dp_name a = dp_name b /\ Forall2 same_word (dp_terms a) (dp_terms b) /\ same_repr (dp_cond a) (dp_cond b)).
Proof.
  intros A B TA TB WA WB NA NB.
  assert (P : forall d, legal_name (dp_name d) -> Forall (fun t => legal_name (t_name t)) (dp_terms d) ->
     pass ("Predicate" +++ repr_atom (dp_name d) (dp_terms d))).
  { intros d N T. rewrite repr_atom_eq. apply class_paren; [reflexivity|]. apply atom_inner; auto. apply N. }
  split.
  - intros E. unfold repr_derived in E. apply append_same_l in E.
    rewrite <- !(append_assoc "Predicate") in E. apply pieces in E as [E1 E2]; auto; try (now apply stops_char; right).
    apply append_same_l in E1. apply repr_atom_iff in E1 as [E1 E3]; try apply A; try apply B; auto.
    apply append_same_l, append_same_r in E2. apply repr_iff in E2; auto.
  - intros (N & T & C). unfold repr_derived. rewrite (proj2 (repr_atom_iff _ _ _ _ (proj1 A) (proj1 B) TA TB) (conj N T)).
    now rewrite (proj2 (repr_iff _ (fun p => addr (1 :: p)) (fun p => addr' (1 :: p)) _ WA WB NA NB) C).
Qed.
Lemma metric_iff a b : well_named (me_expr a) -> well_named (me_expr b) ->
  (repr_metric a = repr_metric b <-> same_reading (me_expr a) (me_expr b) /\ me_opt a = me_opt b).
Proof.
  intros A B. split.
  - intros E. unfold repr_metric in E. apply append_same_l in E. apply pieces in E as [E1 E2]; try (now apply form_piece);
      try (now apply stops_char; right). apply append_same_l, append_same_r in E2. split; auto. now apply reading_iff.
  - intros [R O]. apply reading_iff in R; auto. unfold repr_metric. now rewrite R, O.
Qed.
