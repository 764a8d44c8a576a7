(** Reading printed text back: which trees of tokens a text stands for. *)
From Coq Require Import String Ascii List Bool NArith Arith Lia.
From Verif Require Import Py Names Lexer Show Spec_Parse Spec_Layout.
From Verif Require Import Py_facts Names_facts Lex_facts Layout_facts GD_facts.
Import ListNotations.
Open Scope string_scope.
Open Scope list_scope.

(** ** trees to tokens *)
Fixpoint flat (s : sexp) : list token :=
  match s with
  | SAtom t => [t]
  | SList l => LPAR :: flat_map flat l ++ [RPAR]
  end.
Inductive sx_ok : sexp -> Prop :=
| sx_atom t : t <> LPAR -> t <> RPAR -> sx_ok (SAtom t)
| sx_list l : Forall sx_ok l -> sx_ok (SList l).

Lemma read_from_flat s : sx_ok s -> forall stack out ts,
  read_from stack out (flat s ++ ts) = read_from stack (s :: out) ts.
Proof.
  induction s as [t|l IH] using sexp_ind'; intros K stack out ts; inversion K as [? N1 N2|? F]; subst.
  - destruct t; simpl; auto; contradiction.
  - cbn [flat app read_from]. rewrite <- app_assoc.
    assert (G : forall m o, Forall sx_ok m -> Forall (fun s => sx_ok s -> forall stack out ts,
       read_from stack out (flat s ++ ts) = read_from stack (s :: out) ts) m ->
       read_from (out :: stack) o (flat_map flat m ++ [RPAR] ++ ts)
       = read_from (out :: stack) (rev m ++ o) ([RPAR] ++ ts)).
    { induction m as [|x m IHm]; intros o Fm Gm; auto. cbn [flat_map rev]. inversion Fm; inversion Gm; subst.
      rewrite <- app_assoc. match goal with H : sx_ok x -> _ |- _ => rewrite H by auto end.
      rewrite IHm by auto. now rewrite <- app_assoc. }
    rewrite G by auto. cbn [app read_from]. now rewrite app_nil_r, rev_involutive.
Qed.
Lemma read_flats l : Forall sx_ok l -> read (flat_map flat l) = Some l.
Proof.
  intros F. unfold read. assert (G : forall m o, Forall sx_ok m ->
    read_from [] o (flat_map flat m) = Some (rev o ++ m)).
  { induction m as [|x m IH]; intros o Fm; simpl.
    - now rewrite app_nil_r.
    - inversion Fm; subst. rewrite read_from_flat, IH by auto. simpl. now rewrite <- app_assoc. }
  rewrite G by auto. reflexivity.
Qed.

(** ** [rx s l]: the text [s] stands for the trees [l], and has no comment *)
Definition rx (s : string) (l : list sexp) : Prop :=
  no_comment s /\ lex s = flat_map flat l /\ Forall sx_ok l.

Lemma rx_read s l : rx s l -> read_text s = Some l.
Proof. intros (_ & E & F). unfold read_text. rewrite E. now apply read_flats. Qed.

Lemma rx_nil : rx "" [].
Proof. repeat split; auto. Qed.
Lemma rx_app a b l m : rx a l -> rx b m -> delimited b -> rx (a +++ b) (l ++ m).
Proof.
  intros (N1 & E1 & F1) (N2 & E2 & F2) D. split; [apply no_comment_app; auto|]. split.
  - rewrite lex_cut, E1, E2, flat_map_app; auto.
  - apply Forall_app; auto.
Qed.
(** a prefix after which no token is open *)
Lemma rx_pre a b l m : rx a l -> fst (run QStart a) = QStart -> rx b m -> rx (a +++ b) (l ++ m).
Proof.
  intros (N1 & E1 & F1) Q (N2 & E2 & F2). split; [apply no_comment_app; auto|]. split.
  - unfold lex in *. rewrite lex_from_app, Q. rewrite lex_from_run, Q in E1. cbn [flush] in E1.
    rewrite app_nil_r in E1. rewrite E1, E2. now rewrite flat_map_app.
  - apply Forall_app; auto.
Qed.
(** whitespace *)
Lemma space_not_semi c : is_space c = true -> chr 59 c = false.
Proof. destruct c as [[] [] [] [] [] [] [] []]; vm_compute; auto; intuition discriminate. Qed.
Lemma no_comment_space s : all_space s -> no_comment s.
Proof.
  induction s as [|c r IH]; simpl; auto. intros [H1 H2]. split; auto. now apply space_not_semi.
Qed.
Lemma rx_white w b m : all_space w -> rx b m -> rx (w +++ b) m.
Proof.
  intros W (N & E & F). split; [apply no_comment_app; split; auto; now apply no_comment_space|].
  split; auto. now rewrite lex_spaces.
Qed.
Lemma rx_space b m : rx b m -> rx (" " +++ b) m.
Proof. apply (rx_white " "). cbn; auto. Qed.
Lemma rx_nl b m : rx b m -> rx (nl +++ b) m.
Proof. apply (rx_white nl). cbn; auto. Qed.

(** groups *)
Lemma rx_group s body l : rx body l -> s = "(" +++ body +++ ")" -> rx s [SList l].
Proof.
  intros (N & E & F) ->. split.
  - cbn. split; [reflexivity|]. apply no_comment_app. split; [auto|cbn; auto].
  - split; [|constructor; auto; now constructor].
    change (lex ("(" +++ body +++ ")")) with (LPAR :: lex (body +++ ")")).
    rewrite lex_cut by (auto; cbn; auto). rewrite E. cbn. now rewrite app_nil_r.
Qed.

(** words *)
Lemma run_word r : forall p, all_chars is_name_char r = true -> run (QWord p) r = (QWord (p +++ r), []).
Proof.
  induction r as [|c r IH]; intros p H; simpl.
  - now rewrite append_nil_r.
  - simpl in H. apply andb_true_iff in H as [H1 H2]. rewrite H1. unfold snoc.
    rewrite IH by auto. now rewrite append_assoc.
Qed.
Lemma start_alpha c : is_alpha c = true -> start c = (QWord (str1 c), []) /\ chr 59 c = false.
Proof. destruct c as [[] [] [] [] [] [] [] []]; vm_compute; auto; intuition discriminate. Qed.
Lemma name_char_not_semi c : is_name_char c = true -> chr 59 c = false.
Proof. destruct c as [[] [] [] [] [] [] [] []]; vm_compute; auto; intuition discriminate. Qed.
Lemma rx_word n : identifier n -> rx n [name_sx n].
Proof.
  intros H. apply name_regex_spec in H. destruct n as [|c r]; [discriminate|]. cbn in H.
  apply andb_true_iff in H as [H1 H2]. destruct (start_alpha c H1) as [E1 E2]. split.
  - split; auto. clear E1 E2. induction r as [|d r IH]; cbn; auto. cbn in H2.
    apply andb_true_iff in H2 as [H2 H3]. split; auto. now apply name_char_not_semi.
  - split; [|repeat constructor; discriminate].
    unfold lex. rewrite lex_from_run. cbn [run lstep]. rewrite E1. rewrite run_word by auto. reflexivity.
Qed.
Lemma rx_name n : legal_name n -> rx n [name_sx n].
Proof. intros [H _]. now apply rx_word. Qed.
Lemma rx_type n : legal_type n -> rx n [name_sx n].
Proof. intros [H _]. now apply rx_word. Qed.

(** a literal piece of text *)
Ltac rx_lit := split; [vm_compute; intuition|split; [vm_compute; reflexivity|repeat constructor; discriminate]].

Lemma rx_var n : legal_name n -> rx ("?" +++ n) (var_sx n).
Proof.
  intros H. change (var_sx n) with ([SAtom QMARK] ++ [name_sx n]).
  apply rx_pre; [rx_lit|reflexivity|now apply rx_name].
Qed.

(** lists separated by whitespace *)
Lemma rx_join {A} (f : A -> string) (g : A -> list sexp) l :
  Forall (fun x => rx (f x) (g x)) l -> rx (join " " (map f l)) (flat_map g l).
Proof.
  induction l as [|x l IH]; intros F; [apply rx_nil|]. inversion F; subst.
  cbn [map flat_map]. destruct l as [|y l].
  - cbn. now rewrite app_nil_r.
  - change (join " " (f x :: map f (y :: l))) with (f x +++ " " +++ join " " (map f (y :: l))).
    apply rx_app; auto; [|reflexivity]. apply rx_space; auto.
Qed.
Lemma rx_lines {A} (f : A -> string) (g : A -> list sexp) l :
  Forall (fun x => rx (f x) (g x)) l -> rx (join nl (map f l)) (flat_map g l).
Proof.
  induction l as [|x l IH]; intros F; [apply rx_nil|]. inversion F; subst.
  cbn [map flat_map]. destruct l as [|y l].
  - cbn. now rewrite app_nil_r.
  - change (join nl (f x :: map f (y :: l))) with (f x +++ nl +++ join nl (map f (y :: l))).
    apply rx_app; auto; [|reflexivity]. apply rx_nl; auto.
Qed.
Lemma flat_map_single {A B} (f : A -> B) l : flat_map (fun x => [f x]) l = map f l.
Proof. induction l; simpl; congruence. Qed.
Lemma rx_words l : Forall identifier l -> rx (join " " l) (map name_sx l).
Proof.
  intros F. rewrite <- (map_id l) at 1. rewrite <- (flat_map_single name_sx). apply rx_join.
  eapply Forall_impl; [|exact F]. intros a Ha. now apply rx_word.
Qed.

(** texts with the same words *)
Lemma rx_split s t l : split_ws s = split_ws t -> rx t l -> rx s l.
Proof.
  intros E (N & L & F). assert (W : without ";"%char t) by now apply without_no_comment.
  split; [|split; auto].
  - apply without_no_comment, split_ws_without; [reflexivity|]. rewrite E. now apply split_ws_without.
  - rewrite <- L. now apply tokens_words.
Qed.

(** ** [tx s ts]: the tokens of a text without comments *)
Definition tx (s : string) (ts : list token) : Prop := no_comment s /\ lex s = ts.
Lemma rx_tx s l : rx s l -> tx s (flat_map flat l).
Proof. intros (N & E & _). split; auto. Qed.
Lemma tx_app a b ts us : tx a ts -> tx b us -> delimited b -> tx (a +++ b) (ts ++ us).
Proof.
  intros (N1 & E1) (N2 & E2) D. split; [apply no_comment_app; auto|]. now rewrite lex_cut, E1, E2.
Qed.
Lemma tx_pre a b ts us : tx a ts -> fst (run QStart a) = QStart -> tx b us -> tx (a +++ b) (ts ++ us).
Proof.
  intros (N1 & E1) Q (N2 & E2). split; [apply no_comment_app; auto|].
  unfold lex in *. rewrite lex_from_app, Q. rewrite lex_from_run, Q in E1. cbn [flush] in E1.
  rewrite app_nil_r in E1. now rewrite E1, E2.
Qed.
Lemma tx_white w b us : all_space w -> tx b us -> tx (w +++ b) us.
Proof.
  intros W (N & E). split; [apply no_comment_app; split; auto; now apply no_comment_space|].
  now rewrite lex_spaces.
Qed.
Lemma tx_rx s l : tx s (flat_map flat l) -> Forall sx_ok l -> rx s l.
Proof. intros (N & E) F. split; auto. Qed.
Lemma tx_split s t ts : split_ws s = split_ws t -> tx t ts -> tx s ts.
Proof.
  intros E (N & L). assert (W : without ";"%char t) by now apply without_no_comment.
  split.
  - apply without_no_comment, split_ws_without; [reflexivity|]. rewrite E. now apply split_ws_without.
  - rewrite <- L. now apply tokens_words.
Qed.

(** strip *)
Lemma split_ws_lstrip s : split_ws (lstrip s) = split_ws s.
Proof.
  induction s as [|c r IH]; auto. cbn [lstrip]. destruct (is_space c) eqn:C; auto.
  now rewrite split_ws_space.
Qed.
Lemma rstrip_tail s : exists w, all_space w /\ s = rstrip s +++ w.
Proof.
  induction s as [|c r (w & W & E)].
  - exists "". split; [exact I|reflexivity].
  - cbn [rstrip]. destruct (rstrip r) as [|d t] eqn:R.
    + cbn in E. subst w. destruct (is_space c) eqn:C.
      * exists (String c r). split; [split; auto|reflexivity].
      * exists r. split; auto.
    + exists w. split; auto. cbn [append]. f_equal. exact E.
Qed.
Lemma split_ws_rstrip s : split_ws (rstrip s) = split_ws s.
Proof.
  destruct (rstrip_tail s) as (w & W & E). rewrite E at 2.
  destruct w as [|c w]; [now rewrite append_nil_r|].
  destruct W as [W1 W2]. rewrite split_ws_cut, (split_ws_all_space w) by auto. now rewrite app_nil_r.
Qed.
Lemma split_ws_strip s : split_ws (strip s) = split_ws s.
Proof. unfold strip. now rewrite split_ws_rstrip, split_ws_lstrip. Qed.
Lemma rx_strip s l : rx s l -> rx (strip s) l.
Proof. apply rx_split, split_ws_strip. Qed.
Lemma tx_strip s l : tx s l -> tx (strip s) l.
Proof. apply tx_split, split_ws_strip. Qed.

(** concatenation of pieces that begin with a delimiter or end after a token *)
Lemma rx_concat {A} (f : A -> string) (g : A -> list sexp) l :
  Forall (fun x => rx (f x) (g x) /\ fst (run QStart (f x)) = QStart) l ->
  rx (String.concat "" (map f l)) (flat_map g l).
Proof.
  induction l as [|x l IH]; intros F; [apply rx_nil|]. inversion F as [|? ? [H1 H2] H3]; subst.
  cbn [map flat_map]. rewrite concat_cons. apply rx_pre; auto.
Qed.
Lemma rx_concat_delim {A} (f : A -> string) (g : A -> list sexp) l :
  Forall (fun x => rx (f x) (g x) /\ delimited (f x) /\ f x <> "") l ->
  rx (String.concat "" (map f l)) (flat_map g l).
Proof.
  induction l as [|x l IH]; intros F; [apply rx_nil|]. inversion F as [|? ? [H1 H2] H3]; subst.
  cbn [map flat_map]. rewrite concat_cons. apply rx_app; auto.
  destruct l as [|y l]; [exact I|]. inversion H3 as [|? ? (G1 & G2 & G3) G4]; subst.
  cbn [map]. rewrite concat_cons. destruct (f y); [contradiction|exact G2].
Qed.
Lemma run_space_end a : no_comment a -> fst (run QStart (a +++ " ")) = QStart.
Proof.
  intros N. rewrite run_app. cbn [fst].
  pose proof (run_no_comment a QStart ltac:(discriminate) N) as K.
  destruct (fst (run QStart a)); try reflexivity. contradiction.
Qed.
