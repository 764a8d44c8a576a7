(** Layout is irrelevant to the tokens (C36, C42). *)
From Coq Require Import String Ascii List Bool NArith Arith Lia.
From Verif Require Import Py Names Reqs Logic Validation Core Lexer Show Parser.
From Verif Require Import Py_facts Lex_facts Spec_Layout.
Import ListNotations.
Open Scope string_scope.
Open Scope list_scope.

Lemma chr_newline c : chr 10 c = true <-> c = newline.
Proof.
  split; [|intros ->; reflexivity].
  destruct c as [[] [] [] [] [] [] [] []]; vm_compute; intros H; try discriminate; reflexivity.
Qed.
Lemma comment_line b r : on_one_line b ->
  lex_from QComment (b +++ String newline r) = lex r.
Proof.
  induction b as [|c b IH]; [reflexivity|]. intros [N H]. cbn [append lex_from lstep].
  destruct (chr 10 c) eqn:C; [apply chr_newline in C; contradiction|]. simpl. auto.
Qed.
Lemma lex_from_comment q r : q <> QComment ->
  lex_from q (String ";" r) = flush q ++ lex_from QComment r.
Proof. intros N. destruct q; try reflexivity; contradiction. Qed.

Lemma lex_layout g s : layout g -> lex (g +++ s) = lex s.
Proof.
  induction 1 as [|c r C _ IH|b r B _ IH]; auto.
  - cbn [append]. now rewrite lex_space.
  - rewrite !append_assoc. cbn [append]. unfold lex at 1. rewrite lex_from_comment by discriminate.
    cbn [flush app]. now rewrite comment_line.
Qed.
Lemma gap_token q g s : q <> QComment -> layout g -> g <> "" ->
  lex_from q (g +++ s) = flush q ++ lex s.
Proof.
  intros N L G. destruct L as [|c r C L|b r B L]; [contradiction| |].
  - cbn [append lex_from]. rewrite delim_step by (auto using space_delim).
    rewrite start_space by auto. cbn [fst snd]. rewrite app_nil_r. f_equal.
    now apply lex_layout.
  - rewrite !append_assoc. cbn [append]. rewrite lex_from_comment by auto. f_equal.
    rewrite comment_line by auto. now apply lex_layout.
Qed.
Lemma gap_comment g s : layout g -> lex_from QComment s = lex s ->
  lex_from QComment (g +++ s) = lex s.
Proof.
  intros L K. induction L as [|c r C L IH|b r B L IH]; auto.
  - cbn [append lex_from lstep]. destruct (chr 10 c); cbn [app]; auto. now apply lex_layout.
  - rewrite !append_assoc. change (";" +++ b +++ String newline r +++ s) with
      ((";" +++ b) +++ String newline (r +++ s)).
    rewrite comment_line by (split; [discriminate|auto]). now apply lex_layout.
Qed.

(** a gap where no token is cut *)
Lemma insert_gap s1 s2 g : layout g -> lex (s1 +++ s2) = lex s1 ++ lex s2 ->
  lex (s1 +++ g +++ s2) = lex (s1 +++ s2).
Proof.
  intros L H. rewrite H. unfold lex in H at 1 2. unfold lex at 1 2.
  rewrite lex_from_app in *. rewrite (lex_from_run QStart s1) in *.
  rewrite <- app_assoc in H. apply app_inv_head in H. rewrite <- app_assoc. f_equal.
  destruct (fst (run QStart s1)) eqn:Q;
    try (destruct g; [exact H|rewrite gap_token; auto; discriminate]).
  now apply gap_comment.
Qed.

(** comments *)
Lemma start_comment c : fst (start c) = QComment -> c = ";"%char.
Proof. destruct c as [[] [] [] [] [] [] [] []]; vm_compute; intros H; try discriminate; reflexivity. Qed.
Lemma lstep_comment q c : fst (lstep q c) = QComment ->
  (q = QComment /\ c <> newline) \/ c = ";"%char.
Proof.
  intros H. assert (K : fst (start c) = QComment -> (q = QComment /\ c <> newline) \/ c = ";"%char).
  { intros E. right. now apply start_comment. }
  destruct q; simpl in H; unfold restart in H; destruct (start c) as [q' ts]; simpl in *;
    repeat match type of H with context [if ?b then _ else _] => destruct b eqn:? end;
    simpl in H; try discriminate; auto.
  left. split; auto. intros ->. discriminate.
Qed.
Lemma run_in_comment s : forall q, fst (run q s) = QComment ->
  (q = QComment /\ on_one_line s) \/ in_comment s.
Proof.
  induction s as [|c r IH]; intros q; cbn [run]; [simpl; auto|].
  pose proof (lstep_comment q c) as L. destruct (lstep q c) as [q1 ts]. cbn [fst] in L.
  specialize (IH q1). destruct (run q1 r) as [q2 us]. cbn [fst] in *. intros ->.
  destruct (IH eq_refl) as [[-> O]|(a & b & -> & B)].
  - destruct (L eq_refl) as [[-> N]| ->].
    + left. simpl. auto.
    + right. exists "", r. auto.
  - right. exists (String c a), b. auto.
Qed.

(** two non-empty gaps are interchangeable outside comments *)
Lemma swap_gap s1 s2 g h : layout g -> layout h -> g <> "" -> h <> "" -> ~ in_comment s1 ->
  lex (s1 +++ g +++ s2) = lex (s1 +++ h +++ s2).
Proof.
  intros Lg Lh G H N. unfold lex. rewrite (lex_from_app _ s1 (g +++ s2)), (lex_from_app _ s1 (h +++ s2)).
  assert (Q : fst (run QStart s1) <> QComment).
  { intros E. apply run_in_comment in E as [[E _]|E]; [discriminate|contradiction]. }
  rewrite !gap_token; auto.
Qed.
(** a comment at the end of the text *)
Lemma final_comment s b : on_one_line b -> lex (s +++ ";" +++ b) = lex s.
Proof.
  intros B. assert (C : lex_from QComment b = []).
  { induction b as [|c b IH]; auto. destruct B as [N B]. cbn [lex_from lstep].
    destruct (chr 10 c) eqn:K; [apply chr_newline in K; contradiction|]. simpl. auto. }
  unfold lex. rewrite lex_from_app, (lex_from_run QStart s). f_equal. cbn [append].
  destruct (fst (run QStart s)) eqn:Q; try (rewrite lex_from_comment by discriminate; rewrite C; apply app_nil_r).
  cbn [lex_from lstep]. simpl. exact C.
Qed.

(** ** C42 *)
Lemma white_all_space s : white s <-> all_space s.
Proof. induction s; simpl; intuition. Qed.
Lemma without_no_comment s : without ";"%char s <-> no_comment s.
Proof.
  induction s as [|c s IH]; simpl; [tauto|]. rewrite IH. apply and_iff_compat_r.
  split; intros H.
  - destruct c as [[] [] [] [] [] [] [] []]; vm_compute in *; auto; congruence.
  - intros ->. discriminate.
Qed.
Lemma words_formatting p s : white p ->
  split_ws (remove_empty_lines (indent p s)) = split_ws s
  /\ split_ws (remove_empty_lines s) = split_ws s
  /\ split_ws (indent p s) = split_ws s.
Proof.
  intros P. apply white_all_space in P. rewrite !split_ws_remove, split_ws_indent by auto. auto.
Qed.
Lemma split_ws_without c s : is_space c = false ->
  (without c s <-> Forall (without c) (split_ws s)).
Proof.
  intros C. induction s as [s IH] using (induction_ltof1 _ String.length); unfold ltof in IH.
  destruct s as [|d r]; [simpl; split; auto|]. destruct (is_space d) eqn:D.
  - rewrite split_ws_space by auto. rewrite <- IH by (simpl; auto with arith). simpl.
    split; [tauto|]. split; auto. congruence.
  - destruct (split_ws_first d r D) as (w & rest & E & S & R). rewrite S, E.
    assert (A : forall a b, without c (a +++ b) <-> without c a /\ without c b).
    { induction a as [|x a IHa]; intros b; simpl; [tauto|]. rewrite IHa. tauto. }
    rewrite A. rewrite (IH rest).
    + split; [intros [H1 H2]; constructor; assumption|intros H; inversion H; split; assumption].
    + rewrite E. cbn [append String.length]. clear. induction w; simpl in *; auto with arith.
Qed.
Lemma tokens_formatting p s : white p -> without ";"%char s ->
  lex (remove_empty_lines (indent p s)) = lex s
  /\ lex (remove_empty_lines s) = lex s
  /\ lex (indent p s) = lex s.
Proof.
  intros P N. destruct (words_formatting p s P) as (E1 & E2 & E3).
  assert (G : forall t, split_ws t = split_ws s -> lex t = lex s).
  { intros t E. rewrite (lex_split s), <- E; [apply lex_split|].
    - apply without_no_comment, split_ws_without; [reflexivity|]. rewrite E.
      now apply split_ws_without.
    - now apply without_no_comment. }
  auto.
Qed.

(** the printed objects: what the formatting did to the body *)
Lemma split_ws_frame pre body post :
  split_ws (pre +++ nl +++ body +++ nl +++ post) = split_ws pre ++ split_ws body ++ split_ws post.
Proof.
  rewrite split_ws_sep; [|cbn; auto|discriminate].
  rewrite split_ws_sep; [|cbn; auto|discriminate]. reflexivity.
Qed.
Lemma words_framed pre body post p : white p ->
  split_ws (remove_empty_lines (pre +++ nl +++ indent p body +++ nl +++ post))
  = split_ws (pre +++ nl +++ body +++ nl +++ post).
Proof.
  intros P. apply white_all_space in P.
  rewrite split_ws_remove, !split_ws_frame, split_ws_indent; auto.
Qed.
Lemma tokens_words s t : split_ws s = split_ws t -> without ";"%char t -> lex s = lex t.
Proof.
  intros E N. rewrite (lex_split t), <- E; [apply lex_split|].
  - apply without_no_comment, split_ws_without; [reflexivity|]. rewrite E.
    now apply split_ws_without.
  - now apply without_no_comment.
Qed.
Lemma words_domain d s : show_domain d = Ok s ->
  exists body, domain_body d = Ok body
    /\ split_ws s = split_ws (("(define (domain " +++ d_name d +++ ")") +++ nl +++ body +++ nl +++ ")").
Proof.
  unfold show_domain. intros H. apply bind_Ok in H as (body & B & H). inversion H; subst.
  exists body. split; auto. rewrite <- (words_framed _ body ")" "    ") by (cbn; auto).
  now rewrite !append_assoc.
Qed.
Lemma words_problem p :
  split_ws (show_problem p)
  = split_ws (("(define (problem " +++ p_name p +++ ")") +++ nl +++ problem_body p +++ nl +++ ")").
Proof.
  unfold show_problem. rewrite <- (words_framed _ (problem_body p) ")" "    ") by (cbn; auto).
  now rewrite !append_assoc.
Qed.
