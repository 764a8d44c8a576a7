(** Facts about the lexer: cutting a text, layout, comments. *)
From Coq Require Import String Ascii List Bool NArith Arith Lia.
From Verif Require Import Py Names Lexer Show Py_facts.
Import ListNotations.
Open Scope string_scope.
Open Scope list_scope.

(** ** the lexer as a machine with output *)
Fixpoint run (q : lstate) (s : string) : lstate * list token :=
  match s with
  | "" => (q, [])
  | String c r => let '(q1, ts) := lstep q c in let '(q2, us) := run q1 r in (q2, ts ++ us)
  end.
Lemma lex_from_run q s : lex_from q s = snd (run q s) ++ flush (fst (run q s)).
Proof.
  revert q. induction s as [|c r IH]; intros q; simpl; auto.
  destruct (lstep q c) as [q1 ts]. rewrite IH. destruct (run q1 r) as [q2 us]. simpl.
  now rewrite app_assoc.
Qed.
Lemma lex_from_app q a b :
  lex_from q (a +++ b) = snd (run q a) ++ lex_from (fst (run q a)) b.
Proof.
  revert q. induction a as [|c r IH]; intros q; simpl; auto.
  destruct (lstep q c) as [q1 ts]. rewrite IH. destruct (run q1 r) as [q2 us]. simpl.
  now rewrite app_assoc.
Qed.
Lemma run_app q a b : run q (a +++ b) =
  (fst (run (fst (run q a)) b), snd (run q a) ++ snd (run (fst (run q a)) b)).
Proof.
  revert q. induction a as [|c r IH]; intros q; simpl.
  - destruct (run q b); auto.
  - destruct (lstep q c) as [q1 ts]. rewrite IH. destruct (run q1 r) as [q2 us]. simpl.
    now rewrite app_assoc.
Qed.

(** ** characters that end a token *)
Definition delim (c : ascii) : bool := is_space c || chr 40 c || chr 41 c || chr 63 c.
Lemma delim_not c : delim c = true ->
  is_name_char c = false /\ is_digit c = false /\ chr 46 c = false /\ chr 61 c = false
  /\ chr 59 c = false.
Proof. destruct c as [[] [] [] [] [] [] [] []]; vm_compute; intuition discriminate. Qed.
Lemma delim_step q c : delim c = true -> q <> QComment ->
  lstep q c = (fst (start c), flush q ++ snd (start c)).
Proof.
  intros D N. destruct (delim_not c D) as (H1 & H2 & H3 & H4 & H5).
  destruct q; simpl; unfold restart; rewrite ?H1, ?H2, ?H3, ?H4; destruct (start c); auto.
  contradiction.
Qed.
Definition delimited (s : string) : Prop := match s with "" => True | String c _ => delim c = true end.
Lemma lex_from_delimited q s : q <> QComment -> delimited s -> lex_from q s = flush q ++ lex s.
Proof.
  intros N D. destruct s as [|c r]; simpl.
  - now rewrite app_nil_r.
  - rewrite delim_step by auto. unfold lex. simpl.
    destruct (start c) as [q1 ts]. simpl. now rewrite app_assoc.
Qed.

(** ** texts without a comment *)
Fixpoint no_comment (s : string) : Prop :=
  match s with "" => True | String c r => chr 59 c = false /\ no_comment r end.
Lemma no_comment_app a b : no_comment (a +++ b) <-> no_comment a /\ no_comment b.
Proof. induction a; simpl; intuition. Qed.
Lemma start_no_comment c : chr 59 c = false -> fst (start c) <> QComment.
Proof. destruct c as [[] [] [] [] [] [] [] []]; vm_compute; intuition discriminate. Qed.
Lemma lstep_no_comment q c : q <> QComment -> chr 59 c = false -> fst (lstep q c) <> QComment.
Proof.
  intros N H. pose proof (start_no_comment c H) as K.
  destruct q; simpl; auto; unfold restart; destruct (start c) as [q' ts]; simpl in *;
    repeat match goal with |- context [if ?b then _ else _] => destruct b end; simpl;
    try assumption; try discriminate; contradiction.
Qed.
Lemma run_no_comment s : forall q, q <> QComment -> no_comment s -> fst (run q s) <> QComment.
Proof.
  induction s as [|c r IH]; simpl; intros q N H; auto. destruct H as [H1 H2].
  pose proof (lstep_no_comment q c N H1) as K. destruct (lstep q c) as [q1 ts]. simpl in K.
  specialize (IH q1 K H2). destruct (run q1 r). exact IH.
Qed.

(** a cut before a delimiter cuts no token *)
Lemma lex_cut a b : no_comment a -> delimited b -> lex (a +++ b) = lex a ++ lex b.
Proof.
  intros N D. unfold lex at 1 2. rewrite lex_from_app, (lex_from_run QStart a).
  rewrite lex_from_delimited; auto.
  - now rewrite app_assoc.
  - apply run_no_comment; auto. discriminate.
Qed.

(** ** whitespace and words *)
Lemma space_delim c : is_space c = true -> delim c = true.
Proof. unfold delim. intros ->. reflexivity. Qed.
Lemma start_space c : is_space c = true -> start c = (QStart, []).
Proof. unfold start. now intros ->. Qed.
Lemma lex_space c s : is_space c = true -> lex (String c s) = lex s.
Proof. intros H. unfold lex. simpl. now rewrite start_space. Qed.

Fixpoint all_space (s : string) : Prop :=
  match s with "" => True | String c r => is_space c = true /\ all_space r end.
Lemma lex_all_space s : all_space s -> lex s = [].
Proof. induction s as [|c r IH]; simpl; intros H; auto. rewrite lex_space; tauto. Qed.
Lemma lex_spaces a s : all_space a -> lex (a +++ s) = lex s.
Proof. induction a as [|c r IH]; simpl; intros H; auto. rewrite lex_space; tauto. Qed.

Lemma split_ws_space c s : is_space c = true -> split_ws (String c s) = split_ws s.
Proof. intros H. simpl. now rewrite H. Qed.
(** the first word *)
Lemma split_ws_first c r : is_space c = false ->
  exists w rest, String c r = String c w +++ rest /\ split_ws (String c r) = String c w :: split_ws rest
    /\ match rest with "" => True | String d _ => is_space d = true end.
Proof.
  revert c. induction r as [|d r IH]; intros c H.
  - exists "", "". simpl. rewrite H. auto.
  - destruct (is_space d) eqn:D.
    + exists "", (String d r). cbn [split_ws append]. rewrite H, D. auto.
    + destruct (IH d D) as (w & rest & E & S & R). exists (String d w), rest.
      split; [simpl; f_equal; exact E|]. split; auto.
      change (split_ws (String c (String d r))) with
        (if is_space c then split_ws (String d r)
         else if is_space d then str1 c :: split_ws (String d r)
              else match split_ws (String d r) with [] => [str1 c] | w :: ws => String c w :: ws end).
      now rewrite H, D, S.
Qed.

Lemma split_ws_cut a b c : is_space c = true ->
  split_ws (a +++ String c b) = split_ws a ++ split_ws b.
Proof.
  intros H. induction a as [|d a IH].
  - simpl. now rewrite H.
  - cbn [append]. destruct (is_space d) eqn:D.
    + now rewrite !split_ws_space by auto.
    + destruct a as [|e a].
      * cbn [append split_ws]. now rewrite D, H.
      * cbn [append] in *.
        change (split_ws (String d (String e (a +++ String c b)))) with
        (if is_space d then split_ws (String e (a +++ String c b))
         else if is_space e then str1 d :: split_ws (String e (a +++ String c b))
              else match split_ws (String e (a +++ String c b)) with
                   | [] => [str1 d] | w :: ws => String d w :: ws end).
        change (split_ws (String d (String e a))) with
        (if is_space d then split_ws (String e a)
         else if is_space e then str1 d :: split_ws (String e a)
              else match split_ws (String e a) with
                   | [] => [str1 d] | w :: ws => String d w :: ws end).
        rewrite IH, D. destruct (is_space e) eqn:Ee; auto.
        destruct (split_ws_first e a Ee) as (w & rest & _ & S & _). rewrite S. reflexivity.
Qed.
Lemma split_ws_all_space s : all_space s -> split_ws s = [].
Proof. induction s as [|c r IH]; intros H; auto. destruct H. rewrite split_ws_space; auto. Qed.
Lemma split_ws_spaces a s : all_space a -> split_ws (a +++ s) = split_ws s.
Proof. induction a as [|c r IH]; simpl; intros H; auto. destruct H as [-> H]. auto. Qed.

(** without comments, the tokens are those of the words *)
Lemma lex_split s : no_comment s -> lex s = flat_map lex (split_ws s).
Proof.
  induction s as [s IH] using (induction_ltof1 _ String.length); unfold ltof in IH.
  destruct s as [|c r]; auto. intros N. destruct (is_space c) eqn:C.
  - rewrite lex_space, split_ws_space by auto. apply IH; [simpl; lia|apply N].
  - destruct (split_ws_first c r C) as (w & rest & E & S & R). rewrite E in *. rewrite S. cbn [flat_map].
    apply no_comment_app in N as [N1 N2].
    rewrite lex_cut; auto.
    + f_equal. apply IH; auto. cbn [append String.length].
      clear. induction w; simpl in *; lia.
    + destruct rest; auto. now apply space_delim.
Qed.

(** ** lines *)
Lemma linebreak_space c : is_linebreak c = true -> is_space c = true.
Proof. destruct c as [[] [] [] [] [] [] [] []]; vm_compute; intuition discriminate. Qed.

(** every line but the last has an end, and ends are whitespace *)
Fixpoint ended (ls : list (string * string)) : Prop :=
  match ls with
  | [] => True
  | [(l, e)] => all_space e
  | (l, e) :: ls' => all_space e /\ e <> "" /\ ended ls'
  end.
Lemma ended_cons l e ls : all_space e -> e <> "" -> ended ls -> ended ((l, e) :: ls).
Proof. destruct ls; simpl; auto. Qed.
Lemma splitlines_ended s : ended (splitlines s).
Proof.
  induction s as [s IH] using (induction_ltof1 _ String.length); unfold ltof in IH.
  destruct s as [|c r]; [exact I|]. cbn [splitlines].
  destruct (is_linebreak c) eqn:C.
  - pose proof (linebreak_space c C) as Sc.
    assert (G : forall r', String.length r' <= String.length r ->
      ended (("", str1 c) :: splitlines r')).
    { intros r' L. apply ended_cons; [cbn; auto|discriminate|apply IH; simpl; lia]. }
    destruct (code c =? 13)%N; [|now apply G].
    destruct r as [|d r]; [cbn; auto|].
    destruct (code d =? 10)%N eqn:Dd; [|now apply G].
    apply ended_cons; [|discriminate|apply IH; simpl; lia].
    cbn. repeat split; auto.
    apply N.eqb_eq in Dd. unfold is_space, in_range. rewrite Dd. reflexivity.
  - assert (E : ended (splitlines r)) by (apply IH; simpl; lia).
    destruct (splitlines r) as [|[l e] ls]; [exact I|].
    destruct ls; exact E.
Qed.
Lemma splitlines_concat s : String.concat "" (map (fun le => fst le +++ snd le) (splitlines s)) = s.
Proof.
  assert (CC : forall x l, String.concat "" (x :: l) = x +++ String.concat "" l).
  { intros x [|y l]; simpl; auto. clear. induction x; simpl; congruence. }
  induction s as [s IH] using (induction_ltof1 _ String.length); unfold ltof in IH.
  destruct s as [|c r]; auto. cbn [splitlines].
  destruct (is_linebreak c) eqn:C.
  - destruct (code c =? 13)%N.
    + destruct r as [|d r]; auto. destruct (code d =? 10)%N; cbn [map]; rewrite CC, IH by (simpl; lia);
        reflexivity.
    + cbn [map]. rewrite CC, IH by (simpl; lia). reflexivity.
  - specialize (IH r). rewrite <- IH at 2 by (simpl; lia).
    destruct (splitlines r) as [|[l e] ls]; auto.
    cbn [map]. rewrite !CC. reflexivity.
Qed.

Lemma concat_cons x l : String.concat "" (x :: l) = x +++ String.concat "" l.
Proof. destruct l; simpl; auto. induction x; simpl; congruence. Qed.
Lemma append_assoc a b c : (a +++ b) +++ c = a +++ (b +++ c).
Proof. induction a; simpl; congruence. Qed.
Lemma append_nil_r a : a +++ "" = a.
Proof. induction a; simpl; congruence. Qed.

Lemma split_ws_sep a e b : all_space e -> e <> "" ->
  split_ws (a +++ e +++ b) = split_ws a ++ split_ws b.
Proof.
  intros S N. destruct e as [|c e]; [contradiction|]. destruct S as [S1 S2].
  cbn [append]. rewrite split_ws_cut, split_ws_spaces; auto.
Qed.
(** a line may be given a prefix of whitespace *)
Lemma split_ws_lines (pre : string * string -> string) ls :
  (forall le, all_space (pre le)) -> ended ls ->
  split_ws (String.concat "" (map (fun le => pre le +++ fst le +++ snd le) ls))
  = flat_map split_ws (map fst ls).
Proof.
  intros P. induction ls as [|[l e] ls IH]; auto. intros E.
  cbn [map flat_map]. rewrite concat_cons. cbn [fst snd].
  destruct ls as [|[l2 e2] ls].
  - cbn. rewrite !append_nil_r, app_nil_r. rewrite split_ws_spaces by apply P. cbn in E.
    destruct e as [|c e]; [now rewrite append_nil_r|].
    destruct E as [E1 E2]. rewrite split_ws_cut, (split_ws_all_space e E2) by auto. apply app_nil_r.
  - destruct E as (E1 & E2 & E3). rewrite !append_assoc, split_ws_spaces by apply P.
    rewrite split_ws_sep by auto. f_equal. apply IH; auto.
Qed.
Lemma split_ws_splitlines s : split_ws s = flat_map split_ws (map fst (splitlines s)).
Proof.
  rewrite <- (split_ws_lines (fun _ => "")); [|intros; exact I|apply splitlines_ended].
  now rewrite splitlines_concat.
Qed.

Lemma split_ws_indent p s : all_space p -> split_ws (indent p s) = split_ws s.
Proof.
  intros P. unfold indent.
  rewrite (split_ws_lines (fun le => if blank (fst le) then "" else p));
    [|intros le; cbn beta; destruct (blank (fst le)); [exact I|exact P]|apply splitlines_ended].
  symmetry. apply split_ws_splitlines.
Qed.

Lemma rstrip_all_space s : rstrip s = "" -> all_space s.
Proof.
  induction s as [|c r IH]; simpl; auto. destruct (rstrip r) eqn:E; [|discriminate].
  destruct (is_space c); [auto|discriminate].
Qed.
Lemma blank_all_space s : blank s = true -> all_space s.
Proof.
  unfold blank, strip. intros H. apply String.eqb_eq in H. apply rstrip_all_space in H.
  induction s as [|c r IH]; simpl in *; auto.
  destruct (is_space c) eqn:C; auto. simpl in H. destruct H. congruence.
Qed.
Lemma split_ws_join ls : split_ws (join nl ls) = flat_map split_ws ls.
Proof.
  induction ls as [|l ls IH]; auto. cbn [flat_map]. destruct ls as [|l2 ls].
  - simpl. now rewrite app_nil_r.
  - change (join nl (l :: l2 :: ls)) with (l +++ nl +++ join nl (l2 :: ls)).
    rewrite split_ws_sep; [now rewrite IH|cbn; auto|discriminate].
Qed.
Lemma split_ws_remove s : split_ws (remove_empty_lines s) = split_ws s.
Proof.
  unfold remove_empty_lines. rewrite split_ws_join, (split_ws_splitlines s).
  induction (map fst (splitlines s)) as [|l ls IH]; auto. cbn [filter flat_map].
  destruct (blank l) eqn:B; cbn [negb].
  - now rewrite IH, (split_ws_all_space l (blank_all_space l B)).
  - cbn [flat_map]. now rewrite IH.
Qed.
