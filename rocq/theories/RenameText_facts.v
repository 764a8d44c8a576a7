(** Facts: reading a text with its words renamed (C70). *)
From Coq Require Import String Ascii List Bool Arith NArith Lia.
From Verif Require Import Py Names Reqs Logic Validation Core Lexer TypedList UpdateTags Parser Spec_Rename Py_facts Logic_facts GD_facts Rename_facts.
Import ListNotations.
Open Scope string_scope.
Open Scope list_scope.

Section Rename.
  Variable r : string -> string.
  Hypothesis R : renaming r.
  Notation rvar := (ren_var r). Notation rterm := (ren_term r). Notation rform := (ren_form r).

  (** ** tokens *)
  Definition rt (t : token) : token := match t with TWord w => TWord (r w) | _ => t end.
  Definition mode_of (q : lstate) : mode :=
    match q with QWord w => InWord w | QKw _ => InKeyword | QComment => InComment | _ => Plain end.
  Definition no_word (q : lstate) : bool := match q with QWord _ => false | _ => true end.
  Definition plain (q : lstate) : bool := match q with QWord _ | QKw _ | QComment => false | _ => true end.

  Lemma char_is_chr c : char_is 59 c = chr 59 c /\ char_is 58 c = chr 58 c /\ char_is 10 c = chr 10 c.
  Proof. destruct c as [[] [] [] [] [] [] [] []]; vm_compute; auto. Qed.
  Lemma start_sync c : is_alpha c = false ->
    mode_of (fst (start c)) = fst (start_mode c) /\ snd (start_mode c) = str1 c /\ map rt (snd (start c)) = snd (start c) /\ no_word (fst (start c)) = true.
  Proof. destruct c as [[] [] [] [] [] [] [] []]; vm_compute; intros H; try discriminate H; auto. Qed.
  Lemma start_alpha c : is_alpha c = true -> start c = (QWord (str1 c), []) /\ start_mode c = (InWord (str1 c), "").
  Proof. destruct c as [[] [] [] [] [] [] [] []]; vm_compute; intros H; try discriminate H; auto. Qed.
  Lemma alpha_facts c : is_alpha c = true -> is_name_char c = true /\ is_digit c = false /\ chr 46 c = false /\ chr 61 c = false.
  Proof. destruct c as [[] [] [] [] [] [] [] []]; vm_compute; intros H; try discriminate H; auto. Qed.
  Lemma digit_facts c : is_digit c = true -> start_mode c = (Plain, str1 c).
  Proof. destruct c as [[] [] [] [] [] [] [] []]; vm_compute; intros H; try discriminate H; auto. Qed.
  Lemma dot_facts c : chr 46 c = true -> start_mode c = (Plain, str1 c).
  Proof. destruct c as [[] [] [] [] [] [] [] []]; vm_compute; intros H; try discriminate H; auto. Qed.
  Lemma equal_facts c : chr 61 c = true -> start_mode c = (Plain, str1 c).
  Proof. destruct c as [[] [] [] [] [] [] [] []]; vm_compute; intros H; try discriminate H; auto. Qed.
  Lemma name_alpha c : is_name_char c = false -> is_alpha c = false.
  Proof. unfold is_name_char. now destruct (is_alpha c). Qed.

  Lemma flush_rt q : no_word q = true -> map rt (flush q) = flush q.
  Proof. destruct q; cbn; try discriminate; auto. intros _. unfold kw_token. now destruct (memb _ _ _). Qed.
  Lemma append_nil s : s +++ "" = s.
  Proof. induction s; cbn; congruence. Qed.
  Lemma append_assoc a b c : (a +++ b) +++ c = a +++ b +++ c.
  Proof. induction a; cbn; congruence. Qed.
  Lemma all_app p a b : all_chars p (a +++ b) = all_chars p a && all_chars p b.
  Proof. induction a; cbn; auto. now rewrite IHa, andb_assoc. Qed.

  (** more name characters lengthen the word *)
  Lemma lex_word b : forall a t, all_chars is_name_char b = true -> lex_from (QWord a) (b +++ t) = lex_from (QWord (a +++ b)) t.
  Proof.
    induction b as [|c b IH]; intros a t H; cbn [append]; [now rewrite append_nil|].
    cbn in H. apply andb_true_iff in H as [Hc H]. cbn [lex_from lstep]. rewrite Hc. cbn [app]. rewrite IH by auto.
    f_equal. unfold snoc. now rewrite append_assoc.
  Qed.
  Lemma lex_alpha q c s : plain q = true -> is_alpha c = true -> lex_from q (String c s) = flush q ++ lex_from (QWord (str1 c)) s.
  Proof.
    intros P A. destruct (alpha_facts c A) as (A1 & A2 & A3 & A4). destruct (start_alpha c A) as [S1 _].
    destruct q; try discriminate P; cbn [lex_from lstep]; rewrite ?A2, ?A3, ?A4; unfold restart; rewrite S1; cbn [flush app]; rewrite ?app_nil_r; auto.
  Qed.
  Lemma lex_name q w t : plain q = true -> name_regex w = true -> lex_from q (w +++ t) = flush q ++ lex_from (QWord w) t.
  Proof.
    intros P N. destruct w as [|c w]; [discriminate|]. cbn in N. apply andb_true_iff in N as [A N]. cbn [append].
    rewrite lex_alpha by auto. f_equal. now rewrite lex_word.
  Qed.

  Lemma lex_both s :
    (forall q, no_word q = true -> lex_from q (rename_from r (mode_of q) s) = map rt (lex_from q s))
    /\ (forall q w, plain q = true -> name_regex w = true ->
        lex_from q (rename_from r (InWord w) s) = flush q ++ map rt (lex_from (QWord w) s)).
  Proof.
    induction s as [|c s [IH1 IH2]].
    - split.
      + intros q Q. destruct q; try discriminate Q; cbn; auto. unfold kw_token. now destruct (memb _ _ _).
      + intros q w P N. cbn [rename_from]. rewrite <- (append_nil (r w)), lex_name; auto. now apply (rn_name r R).
    - split.
      + intros q Q. destruct (is_alpha c) eqn:A.
        * destruct (plain q) eqn:P.
          -- destruct (start_alpha c A) as [S1 S2]. replace (rename_from r (mode_of q) (String c s)) with (rename_from r (InWord (str1 c)) s)
               by (destruct q; try discriminate P; cbn [mode_of rename_from mode_step]; rewrite S2; reflexivity).
             rewrite IH2 by (auto; cbn; now rewrite A). rewrite lex_alpha, map_app, flush_rt; auto.
          -- destruct (alpha_facts c A) as (A1 & _). destruct q as [| | | |k| | |]; try discriminate; cbn [mode_of rename_from mode_step].
             ++ rewrite A1. cbn [str1 append]. cbn [lex_from lstep]. rewrite A1. cbn [app]. apply (IH1 (QKw (snoc k c))). reflexivity.
             ++ cbn [str1 append lex_from lstep]. destruct (char_is_chr c) as (_ & _ & E). rewrite E.
                destruct (chr 10 c); cbn [app]; [apply (IH1 QStart)|apply (IH1 QComment)]; reflexivity.
        * destruct (start_sync c A) as (S1 & S2 & S3 & S4).
          assert (St : forall q', lex_from (fst (start c)) (rename_from r (fst (start_mode c)) s) = map rt (lex_from (fst (start c)) s) ->
             no_word q' = true -> (flush q' ++ snd (start c)) ++ lex_from (fst (start c)) (rename_from r (fst (start_mode c)) s)
              = map rt ((flush q' ++ snd (start c)) ++ lex_from (fst (start c)) s)).
          { intros q' E N. now rewrite E, !map_app, S3, flush_rt. }
          assert (St0 : lex_from (fst (start c)) (rename_from r (fst (start_mode c)) s) = map rt (lex_from (fst (start c)) s)).
          { rewrite <- S1. now apply IH1. }
          assert (Re : forall q', no_word q' = true ->
             (let '(q1, ts) := restart q' c in ts ++ lex_from q1 (rename_from r (fst (start_mode c)) s)) = map rt (let '(q1, ts) := restart q' c in ts ++ lex_from q1 s)).
          { intros q' N. unfold restart. destruct (start c) as [q1 ts] eqn:E. cbn [fst snd] in *. now apply (St q'). }
          destruct q as [|w|n|n|k| | |]; try discriminate Q; cbn [mode_of rename_from mode_step].
          -- destruct (start_mode c) as [m out] eqn:E. cbn [fst snd] in *. subst out. cbn [str1 append lex_from lstep].
             specialize (St QStart St0 eq_refl). destruct (start c) as [q1 ts]. exact St.
          -- destruct (start_mode c) as [m out] eqn:E. cbn [fst snd] in *. subst out. cbn [str1 append lex_from lstep].
             destruct (is_digit c) eqn:D; [|destruct (chr 46 c) eqn:Dot].
             ++ rewrite (digit_facts c D) in E. inversion E; subst. cbn [app]. now apply (IH1 (QNum (snoc n c))).
             ++ rewrite (dot_facts c Dot) in E. inversion E; subst. cbn [app]. now apply (IH1 (QDot n)).
             ++ apply (Re (QNum n) eq_refl).
          -- destruct (start_mode c) as [m out] eqn:E. cbn [fst snd] in *. subst out. cbn [str1 append lex_from lstep].
             destruct (is_digit c) eqn:D.
             ++ rewrite (digit_facts c D) in E. inversion E; subst. cbn [app]. now apply (IH1 (QNum (n +++ "." +++ str1 c))).
             ++ apply (Re (QDot n) eq_refl).
          -- destruct (is_name_char c) eqn:Nc.
             ++ cbn [str1 append lex_from lstep]. rewrite Nc. cbn [app]. now apply (IH1 (QKw (snoc k c))).
             ++ destruct (start_mode c) as [m out] eqn:E. cbn [fst snd] in *. subst out. cbn [str1 append lex_from lstep]. rewrite Nc.
                apply (Re (QKw k) eq_refl).
          -- destruct (start_mode c) as [m out] eqn:E. cbn [fst snd] in *. subst out. cbn [str1 append lex_from lstep].
             destruct (chr 61 c) eqn:D.
             ++ rewrite (equal_facts c D) in E. inversion E; subst. cbn [app map rt]. f_equal. now apply (IH1 QStart).
             ++ apply (Re QGt eq_refl).
          -- destruct (start_mode c) as [m out] eqn:E. cbn [fst snd] in *. subst out. cbn [str1 append lex_from lstep].
             destruct (chr 61 c) eqn:D.
             ++ rewrite (equal_facts c D) in E. inversion E; subst. cbn [app map rt]. f_equal. now apply (IH1 QStart).
             ++ apply (Re QLt eq_refl).
          -- cbn [str1 append lex_from lstep]. destruct (char_is_chr c) as (_ & _ & E). rewrite E.
             destruct (chr 10 c); cbn [app]; [apply (IH1 QStart)|apply (IH1 QComment)]; reflexivity.
      + intros q w P N. cbn [rename_from mode_step]. destruct (is_name_char c) eqn:Nc.
        * cbn [append lex_from lstep]. rewrite Nc. cbn [app]. apply IH2; auto. destruct w as [|a w]; [discriminate|].
          cbn in *. apply andb_true_iff in N as [Na Nw]. now rewrite Na, all_app, Nw; cbn; rewrite Nc.
        * pose proof (name_alpha c Nc) as A. destruct (start_sync c A) as (S1 & S2 & S3 & S4).
          destruct (start_mode c) as [m out] eqn:E. cbn [fst snd] in *. subst out. rewrite append_assoc.
          rewrite lex_name; auto; [|now apply (rn_name r R)]. f_equal. cbn [str1 append lex_from lstep]. rewrite Nc. unfold restart.
          destruct (start c) as [q1 ts] eqn:Es. cbn [fst snd] in *. cbn [flush app map rt]. f_equal. rewrite map_app, S3. f_equal.
          rewrite <- S1. now apply IH1.
  Qed.
  Lemma lex_nat s : Lexer.lex (rename_text r s) = map rt (Lexer.lex s).
  Proof. now apply (proj1 (lex_both s) QStart). Qed.

  Fixpoint rs (s : sexp) : sexp := match s with SAtom t => SAtom (rt t) | SList l => SList (map rs l) end.
  Lemma read_from_nat ts : forall st out, read_from (map (map rs) st) (map rs out) (map rt ts) = option_map (map rs) (read_from st out ts).
  Proof.
    induction ts as [|t ts IH]; intros st out; cbn [map read_from].
    - destruct st; cbn; auto. now rewrite map_rev.
    - destruct t as [| | |w|n|o|k|]; cbn [rt].
      + apply (IH (out :: st) []).
      + destruct st as [|up st]; auto. cbn [map]. rewrite <- map_rev. apply (IH st (SList (rev out) :: up)).
      + apply (IH st (SAtom QMARK :: out)).
      + apply (IH st (SAtom (TWord w) :: out)).
      + apply (IH st (SAtom (TNum n) :: out)).
      + apply (IH st (SAtom (TOp o) :: out)).
      + apply (IH st (SAtom (TKw k) :: out)).
      + apply (IH st (SAtom TBad :: out)).
  Qed.
  Lemma read_text_nat s : read_text (rename_text r s) = option_map (map rs) (read_text s).
  Proof. unfold read_text. rewrite lex_nat. apply (read_from_nat (Lexer.lex s) [] []). Qed.
End Rename.
