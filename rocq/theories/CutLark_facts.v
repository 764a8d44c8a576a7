(** Facts for C79: cut texts and the generated parser. *)
From Coq Require Import String Ascii List Bool NArith Lia.
From Verif Require Import Py Names Lexer Py_facts Lex_facts Spec_Cut Spec_Expression Spec_Grammar Words_facts Grammar_facts GrammarAll_facts Spec_Lark GD_facts Cut_facts.
From Verif Require Spec_Layout.
Import ListNotations.
Open Scope string_scope.
Open Scope list_scope.

(** parentheses of a text, outside comments *)
Fixpoint scan (r : reader) (c : bool) (s : string) : option (reader * bool) :=
  match s with
  | "" => Some (r, c)
  | String x s => if c then scan r (negb (Ascii.eqb x newline)) s
      else if is_space x then scan r false s
      else if Ascii.eqb x ";" then scan r true s
      else match read_char r x with Some r' => scan r' false s | None => None end
  end.
Definition read_word (r : reader) (w : string) : option reader :=
  if String.eqb w "(" then match r with Before => Some (Inside 0) | Inside n => Some (Inside (S n)) | Done => None end
  else if String.eqb w ")" then match r with Inside 0 => Some Done | Inside (S n) => Some (Inside n) | _ => None end
  else match r with Inside n => Some (Inside n) | _ => None end.
Fixpoint shape (r : reader) (ws : list string) : option reader :=
  match ws with [] => Some r | w :: ws => match read_word r w with Some r' => shape r' ws | None => None end end.
Lemma shape_app a b r : shape r (a ++ b) = match shape r a with Some r' => shape r' b | None => None end.
Proof. revert r. induction a as [|w a IH]; intros r; cbn; auto. destruct (read_word r w); auto. Qed.
Lemma scan_app a b : forall r c, scan r c (a +++ b) = match scan r c a with Some (r', c') => scan r' c' b | None => None end.
Proof.
  induction a as [|x a IH]; intros r c; cbn; auto. destruct c; auto. destruct (is_space x); auto. destruct (Ascii.eqb x ";"); auto.
  destruct (read_char r x); auto.
Qed.

(** words *)
Definition quiet (x : ascii) : bool := negb (is_space x) && negb (Ascii.eqb x ";") && negb (Ascii.eqb x "(") && negb (Ascii.eqb x ")").
Lemma scan_quiet w : each (fun x => quiet x = true) w -> forall n, scan (Inside n) false w = Some (Inside n, false).
Proof.
  induction w as [|x w IH]; intros H n; auto. inversion H as [|? ? X H']; subst. clear H. rename H' into H. cbn [scan]. unfold quiet in X. rewrite !andb_true_iff, !negb_true_iff in X.
  destruct X as (((X1 & X2) & X3) & X4). rewrite X1, X2. unfold read_char. rewrite X1, X2, X3, X4. auto.
Qed.
Lemma each_impl (P Q : ascii -> Prop) w : (forall x, P x -> Q x) -> each P w -> each Q w.
Proof. intros H. induction 1; constructor; auto. Qed.
Lemma quiet_name x : name_char x -> quiet x = true.
Proof. intros H. apply name_char_spec in H. revert H. destruct x as [[] [] [] [] [] [] [] []]; vm_compute; congruence. Qed.
Lemma quiet_letter x : letter x -> quiet x = true.
Proof. intros H. apply quiet_name. now left. Qed.
Lemma quiet_digit x : digit x -> quiet x = true.
Proof. intros H. apply quiet_name. right. now left. Qed.
Lemma each_app P a b : each P a -> each P b -> each P (a +++ b).
Proof. intros A B. induction A; cbn; auto. now constructor. Qed.
Lemma quiet_number w : number w -> each (fun x => quiet x = true) w.
Proof.
  induction 1 as [d D N|d r D N _ IH]; [eapply each_impl; [|exact D]; apply quiet_digit|].
  apply each_app; [eapply each_impl; [|exact D]; apply quiet_digit|]. cbn. constructor; [reflexivity|]. exact IH.
Qed.
Lemma kind_quiet w t : kind w t -> w <> "(" -> w <> ")" -> each (fun x => quiet x = true) w.
Proof.
  intros K N1 N2. destruct K; try congruence.
  - constructor; [now apply quiet_letter|]. eapply each_impl; [|eassumption]. apply quiet_name.
  - now apply quiet_number.
  - constructor; [reflexivity|]. eapply each_impl; [|eassumption]. apply quiet_name.
  - repeat constructor.
  - cbn in H. repeat (destruct H as [<-|H]; [repeat constructor|]). destruct H.
Qed.
Lemma word_scan w r r' : word w -> read_word r w = Some r' -> scan r false w = Some (r', false).
Proof.
  intros W. unfold read_word. destruct (String.eqb_spec w "(") as [->|N1]; [destruct r; intros [= <-]; reflexivity|].
  destruct (String.eqb_spec w ")") as [->|N2]; [destruct r as [|[]|]; intros [= <-]; reflexivity|].
  destruct (word_kind w W) as (t & K). apply kind_quiet in K; auto. destruct r; try discriminate. intros [= <-]. now apply scan_quiet.
Qed.
Lemma strung_scan ws s : strung ws s -> forall r r', shape r ws = Some r' -> exists c, scan r false s = Some (r', c).
Proof.
  induction 1 as [|x ws s B S IH|k ws s K E S IH|w ws s W S IH]; intros r r' H.
  - cbn in *. injection H as <-. eauto.
  - cbn [scan]. apply blank_spec in B. rewrite B. auto.
  - change (";" +++ k +++ s) with (String ";" (k +++ s)). cbn [scan is_space]. change (is_space ";") with false. change (Ascii.eqb ";" ";") with true. cbv iota.
    assert (C : scan r true k = Some (r, true)).
    { clear - K. induction K as [|x k N K IH]; auto. cbn [scan]. rewrite (proj2 (Ascii.eqb_neq x newline) N). auto. }
    rewrite scan_app, C. destruct (IH _ _ H) as (c & I). destruct E as [->|(s' & ->)].
    + cbn [scan] in *. injection I as -> _. eauto.
    + cbn [scan] in *. change (is_space newline) with true in I. rewrite Ascii.eqb_refl. cbn [negb]. eauto.
  - cbn [shape] in H. destruct (read_word r w) as [r1|] eqn:E; [|discriminate]. rewrite scan_app, (word_scan _ _ _ W E). auto.
Qed.
(** trees *)
Lemma list_shape l : Forall (fun s => forall n, shape (Inside n) (ww s) = Some (Inside n)) l -> forall n, shape (Inside n) (wl l) = Some (Inside n).
Proof. induction 1 as [|s l H _ IH]; intros n; [reflexivity|]. now rewrite wl_cons, shape_app, H, IH. Qed.
Lemma tree_shape s : good s -> forall n, shape (Inside n) (ww s) = Some (Inside n).
Proof.
  induction s as [t|l IH] using sexp_ind'; intros G n.
  - inversion G as [? K N1 N2|]; subst. rewrite ww_atom. cbn [shape]. unfold read_word.
    destruct (String.eqb_spec (spell t) "(") as [E|_]; [rewrite E in K; apply kind_tok in K; destruct N1; now rewrite <- K|].
    destruct (String.eqb_spec (spell t) ")") as [E|_]; [rewrite E in K; apply kind_tok in K; destruct N2; now rewrite <- K|]. reflexivity.
  - inversion G as [|? F]; subst. rewrite ww_list. cbn [shape]. change (read_word (Inside n) "(") with (Some (Inside (S n))). cbv iota.
    rewrite shape_app, list_shape; [reflexivity|]. rewrite Forall_forall in *. auto.
Qed.
Lemma whole_shape l : good (SList l) -> shape Before (ww (SList l)) = Some Done.
Proof.
  intros G. inversion G as [|? F]; subst. rewrite ww_list. cbn [shape]. change (read_word Before "(") with (Some (Inside 0)). cbv iota.
  rewrite shape_app, list_shape; [reflexivity|]. eapply Forall_impl; [|exact F]. intros s. apply tree_shape.
Qed.

(** after the end *)
Lemma done_scan b : forall q, (scan Done false b = Some q -> trailing b) /\ (scan Done true b = Some q -> rest_of_comment b).
Proof.
  induction b as [|x b IH]; intros q; split; cbn [scan].
  - intros _. left. constructor.
  - intros _. left. exact Logic.I.
  - destruct (is_space x) eqn:S; [intros H; apply trailing_space; auto; now apply (IH q)|].
    destruct (Ascii.eqb x ";") eqn:C; [|unfold read_char; rewrite S, C; discriminate]. apply Ascii.eqb_eq in C. subst x. intros H.
    apply IH in H as [O|(k & r & -> & O & T)]; [|now apply trailing_comment]. right. exists "", b. split; auto. split; auto. constructor.
  - destruct (Ascii.eqb x newline) eqn:C; cbn [negb]; intros H; apply IH in H.
    + apply Ascii.eqb_eq in C. subst x. right. exists "", b. split; auto. split; [exact Logic.I|exact H].
    + apply Ascii.eqb_neq in C. destruct H as [O|(k & r & -> & O & T)]; [left; split; auto|].
      right. exists (String x k), r. split; auto. split; [split; auto|auto].
Qed.
Lemma line_scan k : Spec_Layout.on_one_line k -> forall r, scan r true k = Some (r, true).
Proof. induction k as [|x k IH]; intros H r; auto. destruct H as [N H]. cbn [scan]. rewrite (proj2 (Ascii.eqb_neq x newline) N). now apply IH. Qed.
Lemma comment_scan a : forall r c r' c', scan r c a = Some (r', c') -> (c' = true <-> (c = true /\ Spec_Layout.on_one_line a) \/ Spec_Layout.in_comment a).
Proof.
  intros r c r' c' H. split.
  - intros ->. revert r c H. induction a as [|x a IH]; intros r c H; cbn [scan] in H.
    + injection H as _ ->. left. split; auto. exact Logic.I.
    + assert (G : forall r1, scan r1 false a = Some (r', true) -> Spec_Layout.in_comment (String x a)).
      { intros r1 G. apply IH in G as [[G _]|(y & k & -> & O)]; [discriminate|]. exists (String x y), k. auto. }
      destruct c.
      * destruct (Ascii.eqb x newline) eqn:C; cbn [negb] in H; [eauto|]. apply IH in H as [[_ O]|(y & k & -> & O)].
        -- left. split; auto. split; auto. now apply Ascii.eqb_neq.
        -- right. exists (String x y), k. auto.
      * destruct (is_space x); [eauto|]. destruct (Ascii.eqb x ";") eqn:C.
        -- apply Ascii.eqb_eq in C. subst x. apply IH in H as [[_ O]|(y & k & -> & O)]; right; [exists "", a; auto|exists (String ";" y), k; auto].
        -- destruct (read_char r x); [eauto|discriminate].
  - intros [[-> O]|(y & k & -> & O)].
    + rewrite line_scan in H by auto. now injection H as <- <-.
    + rewrite scan_app in H. destruct (scan r c y) as [[r1 c1]|]; [|discriminate]. change (";" +++ k) with (String ";" k) in H. cbn [scan] in H.
      destruct c1; [change (negb (Ascii.eqb ";" newline)) with true in H|change (is_space ";") with false in H; change (Ascii.eqb ";" ";") with true in H; cbv iota in H];
        rewrite line_scan in H by auto; now injection H as <- <-.
Qed.
Lemma scan_adds a b q : (exists c, scan Before false a = Some (Done, c)) -> scan Before false (a +++ b) = Some q -> adds_nothing a b.
Proof.
  intros (c & A) H. rewrite scan_app, A in H. pose proof (comment_scan _ _ _ _ _ A) as C. destruct c.
  - right. split; [|now apply (done_scan b q)]. destruct (proj1 C eq_refl) as [[D _]|D]; [discriminate|auto].
  - left. split; [|now apply (done_scan b q)]. intros D. assert (false = true) by (apply C; now right). discriminate.
Qed.
