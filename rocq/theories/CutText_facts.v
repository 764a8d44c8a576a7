(** Facts for C79: printed texts that are cut. *)
From Coq Require Import String Ascii List Bool NArith Lia.
From Verif Require Import Py Names Lexer Py_facts Spec_Layout Lex_facts Layout_facts Spec_Cut Cut_facts Spec_Expression.
Import ListNotations.
Open Scope string_scope.
Open Scope list_scope.

Lemma reads_app ts us : forall stack out, reads_to stack out (ts ++ us) =
  match reads_to stack out ts with Some (st, o) => reads_to st o us | None => None end.
Proof. induction ts as [|t ts IH]; intros stack out; [reflexivity|]. destruct t; cbn [app reads_to]; auto. destruct stack; auto. Qed.
Lemma reads_atoms us : Forall (fun t => ~ is_par t) us -> forall stack out, exists o, reads_to stack out us = Some (stack, o).
Proof.
  induction 1 as [|t us P _ IH]; intros stack out; [now exists out|]. unfold is_par in P. destruct t; cbn [reads_to]; auto; exfalso; tauto.
Qed.
(** what one character does *)
Lemma start_par c : c <> ";"%char -> fst (start c) <> QComment /\
  snd (start c) = (if Ascii.eqb c "(" then [LPAR] else if Ascii.eqb c ")" then [RPAR] else snd (start c)) /\
  (c <> "("%char -> c <> ")"%char -> Forall (fun t => ~ is_par t) (snd (start c))).
Proof.
  intros N. split; [intros E; now apply start_comment in E|].
  destruct c as [[] [] [] [] [] [] [] []]; (split; [reflexivity|]); intros A B; try congruence; vm_compute;
    repeat constructor; intros [H|H]; discriminate.
Qed.
Lemma lstep_par q c : q <> QComment -> c <> ";"%char -> fst (lstep q c) <> QComment /\
  exists us, Forall (fun t => ~ is_par t) us /\
    snd (lstep q c) = us ++ (if Ascii.eqb c "(" then [LPAR] else if Ascii.eqb c ")" then [RPAR] else []).
Proof.
  intros Q N. pose proof (start_par c N) as (S1 & S2 & S3).
  assert (R : forall q', fst (restart q' c) <> QComment /\ exists us, Forall (fun t => ~ is_par t) us /\
    snd (restart q' c) = us ++ (if Ascii.eqb c "(" then [LPAR] else if Ascii.eqb c ")" then [RPAR] else [])).
  { intros q'. unfold restart. destruct (start c) as [q2 ts]. cbn [fst snd] in *. split; auto.
    destruct (Ascii.eqb c "(") eqn:E1; [exists (flush q'); split; [apply flush_par|now rewrite S2]|].
    destruct (Ascii.eqb c ")") eqn:E2; [exists (flush q'); split; [apply flush_par|now rewrite S2]|].
    exists (flush q' ++ ts). rewrite app_nil_r. split; auto. apply Forall_app. split; [apply flush_par|]. apply S3.
    - apply Ascii.eqb_neq. exact E1.
    - apply Ascii.eqb_neq. exact E2. }
  assert (K : forall q', q' <> QComment -> Ascii.eqb c "(" = false -> Ascii.eqb c ")" = false ->
     fst (q', @nil token) <> QComment /\ exists us, Forall (fun t => ~ is_par t) us /\
    snd (q', @nil token) = us ++ (if Ascii.eqb c "(" then [LPAR] else if Ascii.eqb c ")" then [RPAR] else [])).
  { intros q' Q' -> ->. split; auto. exists []. split; [constructor|reflexivity]. }
  assert (K1 : is_name_char c = true -> Ascii.eqb c "(" = false /\ Ascii.eqb c ")" = false).
  { destruct c as [[] [] [] [] [] [] [] []]; vm_compute; intros H; try discriminate; auto. }
  assert (K2 : is_digit c = true -> Ascii.eqb c "(" = false /\ Ascii.eqb c ")" = false).
  { destruct c as [[] [] [] [] [] [] [] []]; vm_compute; intros H; try discriminate; auto. }
  assert (K3 : forall n, In n [46; 61]%N -> chr n c = true -> Ascii.eqb c "(" = false /\ Ascii.eqb c ")" = false).
  { intros n [<-|[<-|[]]]; destruct c as [[] [] [] [] [] [] [] []]; vm_compute; intros H; try discriminate; auto. }
  destruct q; cbn [lstep]; try congruence.
  - pose proof (R QStart) as X. unfold restart in X. destruct (start c). exact X.
  - destruct (is_name_char c) eqn:E; [|apply R]. destruct (K1 eq_refl). apply K; auto; discriminate.
  - destruct (is_digit c) eqn:E. { destruct (K2 eq_refl). apply K; auto; discriminate. }
    destruct (chr 46 c) eqn:E2; [|apply R]. destruct (K3 46%N (or_introl eq_refl) E2). apply K; auto; discriminate.
  - destruct (is_digit c) eqn:E; [|apply R]. destruct (K2 eq_refl). apply K; auto; discriminate.
  - destruct (is_name_char c) eqn:E; [|apply R]. destruct (K1 eq_refl). apply K; auto; discriminate.
  - destruct (chr 61 c) eqn:E2; [|apply R]. destruct (K3 61%N (or_intror (or_introl eq_refl)) E2) as [-> ->]. split; [discriminate|].
    exists [TOp ">="]. split; [|reflexivity]. repeat constructor. intros [H|H]; discriminate.
  - destruct (chr 61 c) eqn:E2; [|apply R]. destruct (K3 61%N (or_intror (or_introl eq_refl)) E2) as [-> ->]. split; [discriminate|].
    exists [TOp "<="]. split; [|reflexivity]. repeat constructor. intros [H|H]; discriminate.
Qed.
Lemma done_white a : forall r, read_chars Done a = Some r -> r = Done /\ white a.
Proof.
  induction a as [|c a IH]; cbn [read_chars]; intros r H; [injection H as <-; cbn; auto|].
  unfold read_char in H. destruct (is_space c) eqn:S; [|destruct (Ascii.eqb c ";"); discriminate]. apply IH in H as [-> W]. cbn. auto.
Qed.
(** inside the expression, the reader has that many groups open *)
Definition opened (q : reader) (st : list (list sexp)) : Prop :=
  match q with Inside n => length st = S n | _ => st = [] end.
Lemma inside a : forall r r' q st o, read_chars r a = Some r' -> q <> QComment -> opened r st -> r <> Done ->
  (exists st' o', reads_to st o (snd (run q a)) = Some (st', o') /\ opened r' st' /\ fst (run q a) <> QComment) \/ r' = Done.
Proof.
  induction a as [|c a IH]; intros r r' q st o H Q O D.
  - cbn in H. injection H as <-. left. exists st, o. cbn. auto.
  - cbn [read_chars] in H. destruct (read_char r c) as [r1|] eqn:E; [|discriminate].
    assert (N : c <> ";"%char).
    { intros ->. unfold read_char in E. cbn in E. discriminate. }
    pose proof (lstep_par q c Q N) as (L1 & us & L2 & L3). cbn [run]. destruct (lstep q c) as [q1 ts]. cbn [fst snd] in *. subst ts.
    destruct (run q1 a) as [q2 vs] eqn:R. cbn [fst snd]. 
    destruct (reads_atoms us L2 st o) as (o1 & A).
    assert (SP : is_space c = true -> Ascii.eqb c "(" = false /\ Ascii.eqb c ")" = false).
    { destruct c as [[] [] [] [] [] [] [] []]; vm_compute; intros X; try discriminate; auto. }
    unfold read_char in E. destruct (is_space c).
    { injection E as <-. destruct (SP eq_refl) as [S1 S2]. rewrite S1, S2, app_nil_r, reads_app, A. 
      destruct (IH r r' q1 st o1 H L1 O D) as [X|X]; [|auto]. rewrite R in X. auto. }
    destruct (Ascii.eqb c ";"); [discriminate|].
    destruct r as [|n|]; [| |congruence].
    + destruct (Ascii.eqb c "("); [|discriminate]. injection E as <-. cbn in O. subst st.
      rewrite <- app_assoc, reads_app, A. cbn [app reads_to].
      destruct (IH (Inside 0) r' q1 [o1] [] H L1 eq_refl) as [X|X]; [discriminate| |auto]. rewrite R in X. auto.
    + destruct (Ascii.eqb c "(").
      { injection E as <-. cbn in O. rewrite <- app_assoc, reads_app, A. cbn [app reads_to].
        destruct (IH (Inside (S n)) r' q1 (o1 :: st) [] H L1) as [X|X]; [cbn; now rewrite O|discriminate| |auto]. rewrite R in X. auto. }
      destruct (Ascii.eqb c ")").
      { injection E as <-. cbn in O. destruct n as [|m].
        - right. now apply done_white in H.
        - rewrite <- app_assoc, reads_app, A. cbn [app reads_to]. destruct st as [|up st]; [discriminate|].
          destruct (IH (Inside m) r' q1 st (SList (rev o1) :: up) H L1) as [X|X]; [cbn in *; lia|discriminate| |auto]. rewrite R in X. auto. }
      injection E as <-. rewrite app_nil_r, reads_app, A.
      destruct (IH (Inside n) r' q1 st o1 H L1 O D) as [X|X]; [|auto]. rewrite R in X. auto.
Qed.
Lemma chars_app q a b : read_chars q (a +++ b) = match read_chars q a with Some q' => read_chars q' b | None => None end.
Proof. revert q. induction a as [|c a IH]; intros q; cbn; auto. destruct (read_char q c); auto. Qed.
(** the reader has not read a complete group *)
Lemma before_empty a : forall q, read_chars Before a = Some Before -> q = QStart -> run q a = (QStart, []).
Proof.
  induction a as [|c a IH]; intros q H ->; auto. cbn [read_chars] in H. unfold read_char in H. destruct (is_space c) eqn:S.
  - cbn [run lstep]. unfold start. rewrite S. now rewrite IH.
  - destruct (Ascii.eqb c ";"); [discriminate|]. destruct (Ascii.eqb c "("); [|discriminate]. exfalso. clear IH S. revert H. generalize 0.
    induction a as [|d a IH]; intros n H; [discriminate|]. cbn [read_chars] in H. destruct (read_char (Inside n) d) as [r|] eqn:E; [|discriminate].
    unfold read_char in E. destruct (is_space d); [injection E as <-; eauto|]. destruct (Ascii.eqb d ";"); [discriminate|].
    destruct (Ascii.eqb d "("); [injection E as <-; eauto|]. destruct (Ascii.eqb d ")"); [|injection E as <-; eauto].
    injection E as <-. destruct n; [|eauto]. apply done_white in H as [H _]. discriminate.
Qed.
Lemma interrupted a b : one_expression (a +++ b) -> white b \/ read_text a = None \/ read_text a = Some [].
Proof.
  unfold one_expression. rewrite chars_app. destruct (read_chars Before a) as [r|] eqn:E; [|discriminate]. intros H.
  destruct r as [|n|].
  - right. right. unfold read_text, lex. rewrite lex_from_run, (before_empty a QStart E eq_refl). reflexivity.
  - right. left. destruct (inside a Before (Inside n) QStart [] [] E) as [(st & o & R & O & _)|X]; try discriminate; [reflexivity|].
    unfold read_text, lex. rewrite lex_from_run. unfold read. rewrite Cut_facts.read_app, R, read_atoms by apply flush_par.
    cbn in O. destruct st; [discriminate|reflexivity].
  - left. now apply done_white in H.
Qed.
