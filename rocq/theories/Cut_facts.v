(** Facts for C79: cut texts. *)
From Coq Require Import String Ascii List Bool NArith Lia.
From Verif Require Import Py Names Lexer Py_facts Spec_Layout Lex_facts Layout_facts Spec_Cut.
Import ListNotations.
Open Scope string_scope.
Open Scope list_scope.

(** ** the lexer *)
Definition is_par (t : token) : Prop := t = LPAR \/ t = RPAR.
Lemma flush_par q : Forall (fun t => ~ is_par t) (flush q).
Proof. destruct q; cbn; unfold kw_token; repeat constructor; try (destruct (memb _ _ _)); intros [H|H]; discriminate. Qed.
Lemma pending q b : flush q <> [] -> exists t r, lex_from q b = t :: r /\ ~ is_par t.
Proof.
  revert q. induction b as [|c b IH]; intros q F.
  - cbn [lex_from]. pose proof (flush_par q) as P. destruct (flush q) as [|t r]; [congruence|]. inversion P; subst. eauto.
  - cbn [lex_from].
    assert (R : exists t r, (let '(q', ts) := restart q c in ts ++ lex_from q' b) = t :: r /\ ~ is_par t).
    { unfold restart. destruct (start c) as [q' ts]. pose proof (flush_par q) as P. destruct (flush q) as [|t r]; [congruence|]. inversion P; subst.
      exists t, ((r ++ ts) ++ lex_from q' b). auto. }
    destruct q; try (cbn in F; congruence); cbn [lstep].
    + destruct (is_name_char c); [apply IH; discriminate|exact R].
    + destruct (is_digit c); [apply IH; discriminate|]. destruct (chr 46 c); [apply IH; discriminate|exact R].
    + destruct (is_digit c); [apply IH; discriminate|exact R].
    + destruct (is_name_char c); [apply IH; discriminate|exact R].
    + destruct (chr 61 c); [|exact R]. exists (TOp ">="), (lex_from QStart b). split; auto. intros [H|H]; discriminate.
    + destruct (chr 61 c); [|exact R]. exists (TOp "<="), (lex_from QStart b). split; auto. intros [H|H]; discriminate.
Qed.
Lemma quiet q b : lex_from q b = [] -> q = QStart \/ q = QComment.
Proof.
  intros H. destruct q; auto; match goal with |- ?q = _ \/ _ => destruct (pending q b) as (t & r & E & _); [discriminate|congruence] end.
Qed.
Lemma trailing_space c s : is_space c = true -> trailing s -> trailing (String c s).
Proof.
  intros C [L|(g & k & -> & L & O)]; [left; now constructor|]. right. exists (String c g), k. split; auto. split; auto. now constructor.
Qed.
Lemma trailing_comment k s : on_one_line k -> trailing s -> trailing (";" +++ k +++ String newline s).
Proof.
  intros K [L|(g & k' & -> & L & O)]; [left; now constructor|]. right. exists (";" +++ k +++ String newline g), k'.
  split; [|split; auto; now constructor]. rewrite !append_assoc. reflexivity.
Qed.
Lemma no_tokens b : (lex_from QStart b = [] -> trailing b) /\ (lex_from QComment b = [] -> rest_of_comment b).
Proof.
  induction b as [|c b [IH1 IH2]]; split.
  - intros _. left. constructor.
  - intros _. left. exact Logic.I.
  - cbn [lex_from lstep]. intros H.
    destruct (is_space c) eqn:S. { unfold start in H. rewrite S in H. apply trailing_space; auto. }
    destruct (chr 59 c) eqn:K.
    { unfold start in H. rewrite S, K in H. apply IH2 in H. assert (c = ";"%char) as ->.
      { apply start_comment. unfold start. now rewrite S, K. }
      destruct H as [O|(k & r & -> & O & T)]; [|now apply trailing_comment]. right. exists "", b. split; auto. split; auto. constructor. }
    exfalso. unfold start in H. rewrite S, K in H.
    assert (P : forall q, flush q <> [] -> lex_from q b <> []).
    { intros q F. destruct (pending q b F) as (t & r & -> & _). discriminate. }
    destruct (chr 40 c); [discriminate|]. destruct (chr 41 c); [discriminate|]. destruct (chr 63 c); [discriminate|].
    destruct (chr 58 c); [eapply P; [|exact H]; discriminate|]. destruct (chr 62 c); [eapply P; [|exact H]; discriminate|].
    destruct (chr 60 c); [eapply P; [|exact H]; discriminate|]. destruct (_ || _); [discriminate|].
    destruct (is_alpha c); [eapply P; [|exact H]; discriminate|]. destruct (is_digit c); [eapply P; [|exact H]; discriminate|discriminate].
  - cbn [lex_from lstep]. destruct (chr 10 c) eqn:K.
    + apply chr_newline in K. subst c. cbn [app]. intros H. right. exists "", b. split; auto. split; [exact Logic.I|]. auto.
    + cbn [app]. intros H. assert (N : c <> newline) by (intros ->; discriminate K). apply IH2 in H.
      destruct H as [O|(k & r & -> & O & T)]; [left; split; auto|]. right. exists (String c k), r. split; auto. split; auto. split; auto.
Qed.
Lemma trailing_none b : trailing b -> lex_from QStart b = [].
Proof.
  intros [L|(g & k & -> & L & O)].
  - pose proof (lex_layout b "" L) as E. rewrite append_nil_r in E. exact E.
  - change (lex (g +++ ";" +++ k) = []). rewrite lex_layout by auto. exact (final_comment "" k O).
Qed.
Lemma comment_run k : on_one_line k -> run QComment k = (QComment, []).
Proof.
  induction k as [|c k IH]; intros O; auto. destruct O as [N O]. cbn [run lstep].
  destruct (chr 10 c) eqn:K; [apply chr_newline in K; contradiction|]. now rewrite IH.
Qed.
Lemma comment_none b : rest_of_comment b -> lex_from QComment b = [].
Proof.
  intros [O|(k & r & -> & O & T)].
  - rewrite lex_from_run, comment_run by auto. reflexivity.
  - rewrite lex_from_app, comment_run by auto. cbn [fst snd app lex_from lstep]. change (chr 10 newline) with true. cbn [app]. now apply trailing_none.
Qed.
Lemma in_comment_run s q : in_comment s -> fst (run q s) = QComment.
Proof.
  intros (a & k & -> & O). rewrite run_app. cbn [fst]. destruct (run q a) as [q' ts]. cbn [fst]. cbn [append run].
  assert (E : fst (lstep q' ";") = QComment) by (destruct q'; reflexivity). destruct (lstep q' ";") as [q2 us]. cbn [fst] in E. subst q2.
  rewrite comment_run by auto. reflexivity.
Qed.
Lemma adds_none a b : fst (run QStart a) = QStart \/ fst (run QStart a) = QComment ->
  (adds_nothing a b <-> lex_from (fst (run QStart a)) b = []).
Proof.
  intros Q. split.
  - intros [[C T]|[C R]].
    + destruct Q as [Q|Q]; rewrite Q; [now apply trailing_none|]. apply run_in_comment in Q as [[Q _]|Q]; [discriminate|contradiction].
    + rewrite (in_comment_run a QStart C). now apply comment_none.
  - intros H. destruct Q as [Q|Q]; rewrite Q in H.
    + left. split; [|now apply no_tokens]. intros C. apply (in_comment_run a QStart) in C. congruence.
    + right. split; [|now apply no_tokens]. apply run_in_comment in Q as [[Q _]|Q]; [discriminate|exact Q].
Qed.

(** ** the reader *)
Fixpoint reads_to (stack : list (list sexp)) (out : list sexp) (ts : list token) : option (list (list sexp) * list sexp) :=
  match ts with
  | [] => Some (stack, out)
  | LPAR :: ts' => reads_to (out :: stack) [] ts'
  | RPAR :: ts' => match stack with [] => None | up :: stack' => reads_to stack' (SList (rev out) :: up) ts' end
  | t :: ts' => reads_to stack (SAtom t :: out) ts'
  end.
Lemma read_app ts us : forall stack out, read_from stack out (ts ++ us) =
  match reads_to stack out ts with Some (st, o) => read_from st o us | None => None end.
Proof.
  induction ts as [|t ts IH]; intros stack out; [reflexivity|]. destruct t; cbn [app read_from reads_to]; auto. destruct stack; auto.
Qed.
Lemma read_atom t stack out ts : ~ is_par t -> read_from stack out (t :: ts) = read_from stack (SAtom t :: out) ts.
Proof. unfold is_par. destruct t; cbn; auto; intros H; exfalso; tauto. Qed.
Lemma read_atoms us : Forall (fun t => ~ is_par t) us -> forall stack out,
  read_from stack out us = match stack with [] => Some (rev out ++ map SAtom us) | _ => None end.
Proof.
  induction 1 as [|t us P _ IH]; intros stack out.
  - cbn. destruct stack; auto. now rewrite app_nil_r.
  - rewrite read_atom by auto. rewrite IH. destruct stack; auto. cbn [rev map]. now rewrite <- app_assoc.
Qed.
(** what has been read is kept, and every token adds something *)
Lemma read_keeps us : forall stack out l, read_from stack out us = Some l ->
  match rev stack with
  | [] => exists m, l = rev out ++ m /\ (us <> [] -> m <> [])
  | o :: _ => exists m, l = rev o ++ m /\ m <> []
  end.
Proof.
  induction us as [|t us IH]; intros stack out l H.
  - cbn in H. destruct stack as [|x stack]; [|discriminate]. injection H as <-. exists []. rewrite app_nil_r. split; auto.
  - assert (A : read_from stack (SAtom t :: out) us = Some l -> match rev stack with
        | [] => exists m, l = rev out ++ m /\ (t :: us <> [] -> m <> [])
        | o :: _ => exists m, l = rev o ++ m /\ m <> [] end).
    { intros K. apply IH in K. destruct (rev stack); auto. destruct K as (m & -> & _). exists (SAtom t :: m).
      split; [cbn [rev]; now rewrite <- app_assoc|discriminate]. }
    destruct t; cbn [read_from] in H; try exact (A H); clear A.
    + apply IH in H. cbn [rev] in H. destruct (rev stack) as [|o s]; cbn [app] in H; auto. destruct H as (m & -> & N). eauto.
    + destruct stack as [|up stack]; [discriminate|]. apply IH in H. cbn [rev]. destruct (rev stack) as [|o s]; cbn [app]; auto.
      destruct H as (m & -> & _). exists (SList (rev out) :: m). split; [cbn [rev]; now rewrite <- app_assoc|discriminate].
Qed.
Definition is_list (x : sexp) : Prop := exists l, x = SList l.
Lemma cut a b l : read_text (a +++ b) = Some l -> Forall is_list l ->
  read_text a = None \/ exists l1 l2, l = l1 ++ l2 /\ read_text a = Some l1 /\ (l2 = [] <-> adds_nothing a b).
Proof.
  intros H F. unfold read_text, read, lex in *. rewrite lex_from_app in H. rewrite (lex_from_run QStart a).
  destruct (run QStart a) as [q ts] eqn:R. cbn [fst snd] in *. rewrite read_app in *.
  destruct (reads_to [] [] ts) as [[st o]|]; [|auto]. rewrite read_atoms by apply flush_par.
  destruct st as [|x st]; [|now left]. right. pose proof (read_keeps _ _ _ _ H) as K. cbn [rev] in K. destruct K as (m & -> & N).
  assert (Q : flush q = []).
  { destruct (flush q) as [|t0 r0] eqn:E; auto. exfalso. destruct (pending q b) as (t & r & L & P); [congruence|]. rewrite L, read_atom in H by auto.
    apply read_keeps in H. cbn [rev] in H. destruct H as (m' & E' & _). rewrite E' in F. rewrite <- app_assoc in F. apply Forall_app in F as [_ F].
    inversion F as [|? ? [y Y] _]. discriminate. }
  exists (rev o), m. split; auto. rewrite Q. cbn [map]. rewrite app_nil_r. split; auto.
  assert (QQ : q = QStart \/ q = QComment) by (destruct q; auto; discriminate).
  pose proof (adds_none a b) as X. rewrite R in X. cbn [fst] in X. rewrite X by auto. split.
  - intros ->. destruct (lex_from q b); auto. exfalso. apply N; auto. discriminate.
  - intros E. rewrite E in H. cbn in H. injection H as H. apply (app_inv_head (rev o)). now rewrite app_nil_r.
Qed.
(** a text that is continued *)
Lemma continued a b l : read_text a = Some l -> Forall is_list l ->
  (adds_nothing a b /\ read_text (a +++ b) = Some l) \/
  (~ adds_nothing a b /\ (read_text (a +++ b) = None \/ exists m, m <> [] /\ read_text (a +++ b) = Some (l ++ m))).
Proof.
  intros H F. unfold read_text, read, lex in *. rewrite lex_from_app. rewrite (lex_from_run QStart a) in H.
  pose proof (adds_none a b) as X. destruct (run QStart a) as [q ts] eqn:R. cbn [fst snd] in *. rewrite read_app in *.
  destruct (reads_to [] [] ts) as [[st o]|]; [|discriminate]. rewrite read_atoms in H by apply flush_par.
  destruct st as [|x st]; [|discriminate]. injection H as <-. apply Forall_app in F as [_ F].
  assert (Q : flush q = []).
  { destruct (flush q); auto. inversion F as [|? ? [y Y] _]. discriminate. }
  assert (QQ : q = QStart \/ q = QComment) by (destruct q; auto; discriminate).
  rewrite X by auto. rewrite Q. cbn [map]. rewrite app_nil_r. destruct (lex_from q b) as [|t us] eqn:E.
  - left. auto.
  - right. split; [discriminate|]. destruct (read_from [] o (t :: us)) as [l'|] eqn:L; auto. right. apply read_keeps in L. cbn [rev] in L.
    destruct L as (m & -> & N). exists m. split; auto. apply N. discriminate.
Qed.
Lemma adds_same a b : adds_nothing a b -> lex (a +++ b) = lex a.
Proof.
  intros [[C T]|[C R]].
  - assert (Q : fst (run QStart a) <> QComment).
    { intros E. apply run_in_comment in E as [[E _]|E]; [discriminate|contradiction]. }
    assert (G : forall g, layout g -> lex (a +++ g) = lex a).
    { intros g L. destruct g as [|c g]; [now rewrite append_nil_r|]. unfold lex. rewrite lex_from_app, (lex_from_run QStart a).
      rewrite <- (append_nil_r (String c g)), gap_token by (auto; discriminate). now rewrite app_nil_r. }
    destruct T as [L|(g & k & -> & L & O)]; [auto|]. rewrite <- append_assoc, final_comment; auto.
  - unfold lex. rewrite lex_from_app, (lex_from_run QStart a), (in_comment_run a QStart C), (comment_none b R). reflexivity.
Qed.
