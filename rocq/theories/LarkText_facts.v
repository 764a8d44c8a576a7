(** The machine on a text and the machine on its words. *)
From Coq Require Import String Ascii List Bool BinNat PArith FMapPositive Arith Lia.
From Verif Require Import Py Names Lexer Lex_facts Spec_Grammar Lark Spec_Lark Py_facts Words_facts GrammarAll_facts LarkLR_facts LarkSound_facts LarkCheck_facts.
Import ListNotations.
Open Scope string_scope.
Open Scope list_scope.
Local Notation "a +++ b" := (String.append a b) (at level 60, right associativity).

(** ** beginnings *)
Lemma after_app p : forall s, after p (p +++ s) = Some s.
Proof. induction p as [|c p IH]; intros s; [now destruct s|]. cbn [after String.append]. now rewrite Ascii.eqb_refl, IH. Qed.
Lemma after_Some p : forall s r, after p s = Some r -> s = p +++ r.
Proof.
  induction p as [|c p IH]; intros s r H; [destruct s; inversion H; reflexivity|]. destruct s as [|d s]; [discriminate|]. cbn [after] in H. destruct (Ascii.eqb_spec c d) as [->|]; [|discriminate].
  apply IH in H as ->. reflexivity.
Qed.
Lemma span_app p w s : all_chars p w = true -> (forall c r, s = String c r -> p c = false) -> span p (w +++ s) = (w, s).
Proof.
  induction w as [|c w IH]; intros H X.
  - change ("" +++ s) with s. destruct s as [|c r]; [reflexivity|]. cbn [span]. now rewrite (X c r eq_refl).
  - cbn [all_chars] in H. apply andb_true_iff in H as [H1 H2]. cbn [String.append span]. now rewrite H1, IH.
Qed.
Lemma span_Some p s : forall w r, span p s = (w, r) -> s = w +++ r /\ all_chars p w = true.
Proof.
  induction s as [|c s IH]; intros w r H; [inversion H; split; reflexivity|]. cbn [span] in H. destruct (p c) eqn:E.
  - destruct (span p s) as [w1 r1]. inversion H; subst. destruct (IH _ _ eq_refl) as [-> A]. split; [reflexivity|]. cbn [all_chars]. now rewrite E.
  - inversion H; subst. split; reflexivity.
Qed.

(** ** the longest string *)
Lemma longest_Some ls : forall s t w r, longest ls s = Some (t, w, r) -> after w s = Some r /\ True /\ In (t, w) ls.
Proof.
  induction ls as [|[t0 w0] ls IH]; intros s t w r H; [discriminate|]. cbn [longest] in H. destruct (after w0 s) as [s0|] eqn:E.
  - destruct (longest ls s) as [[[t1 w1] s1]|] eqn:E1.
    + destruct (Nat.ltb (String.length w0) (String.length w1)); inversion H; subst.
      * destruct (IH _ _ _ _ E1) as (A & _ & B). repeat split; auto. now right.
      * repeat split; auto. now left.
    + inversion H; subst. repeat split; auto. now left.
  - destruct (IH _ _ _ _ H) as (A & _ & B). repeat split; auto. now right.
Qed.
Lemma longest_max ls : forall s t w r t' w' r', longest ls s = Some (t, w, r) -> In (t', w') ls -> after w' s = Some r' -> String.length w' <= String.length w.
Proof.
  induction ls as [|[t0 w0] ls IH]; intros s t w r t' w' r' H I A; [destruct I|]. cbn [longest] in H.
  destruct (after w0 s) as [s0|] eqn:E.
  - destruct (longest ls s) as [[[t1 w1] s1]|] eqn:E1.
    + destruct (Nat.ltb_spec (String.length w0) (String.length w1)) as [LT|LE]; inversion H; subst.
      * destruct I as [I|I]; [inversion I; subst; lia|]. eapply IH; eauto.
      * destruct I as [I|I]; [inversion I; subst; lia|]. pose proof (IH _ _ _ _ _ _ _ E1 I A). lia.
    + inversion H; subst. destruct I as [I|I]; [inversion I; subst; lia|]. exfalso. clear -E1 I A.
      induction ls as [|[t0 w0] ls IH]; [destruct I|]. cbn [longest] in E1. destruct (after w0 s) eqn:E0; [destruct (longest ls s) as [[[a b] c]|]; [destruct (Nat.ltb _ _)|]; discriminate|].
      destruct I as [I|I]; [inversion I; subst; congruence|auto].
  - destruct I as [I|I]; [inversion I; subst; congruence|]. eapply IH; eauto.
Qed.
Lemma longest_first ls : forall s t w r, longest ls s = Some (t, w, r) -> find (fun tw => String.eqb (snd tw) w) ls = Some (t, w).
Proof.
  induction ls as [|[t0 w0] ls IH]; intros s t w r H; [discriminate|]. pose proof H as H0. cbn [longest] in H. cbn [find snd].
  destruct (after w0 s) as [s0|] eqn:E.
  - destruct (longest ls s) as [[[t1 w1] s1]|] eqn:E1.
    + destruct (Nat.ltb_spec (String.length w0) (String.length w1)) as [LT|LE]; inversion H; subst.
      * destruct (String.eqb_spec w0 w) as [->|]; [lia|]. eauto.
      * now rewrite String.eqb_refl.
    + inversion H; subst. now rewrite String.eqb_refl.
  - destruct (String.eqb_spec w0 w) as [->|].
    + apply longest_Some in H as (A & _). congruence.
    + eauto.
Qed.
Lemma longest_exists ls s t w r : In (t, w) ls -> after w s = Some r -> exists x, longest ls s = Some x.
Proof.
  induction ls as [|[t0 w0] ls IH]; intros I A; [destruct I|]. cbn [longest]. destruct (after w0 s) eqn:E.
  - destruct (longest ls s) as [[[a b] c]|]; [destruct (Nat.ltb _ _)|]; eauto.
  - destruct I as [I|I]; [inversion I; subst; congruence|auto].
Qed.

(** ** one word *)
Lemma prefix_len (a b c d : string) : a +++ b = c +++ d -> String.length a <= String.length c -> exists e, c = a +++ e /\ b = e +++ d.
Proof.
  revert c. induction a as [|x a IH]; intros c H L.
  - exists c. split; [reflexivity|exact H].
  - destruct c as [|y c]; [cbn in L; lia|]. cbn [String.append] in H. inversion H; subst. destruct (IH c) as (e & -> & ->); [auto|cbn in L; lia|]. exists e. split; reflexivity.
Qed.
Lemma slen a b : String.length (a +++ b) = String.length a + String.length b.
Proof. induction a as [|c a IH]; [reflexivity|]. cbn. now rewrite IH. Qed.
(** the kinds of strings of the terminals *)
Definition lit_kind (w : string) : bool :=
  match w with
  | "" => false
  | String c r => (is_alpha c && all_chars is_name_char r) || (chr 58 c && all_chars is_name_char r)
                  || (String.eqb r "" && negb (is_alpha c) && negb (is_digit c) && negb (chr 58 c)) || String.eqb w ">=" || String.eqb w "<="
  end.
Lemma lits_kind : forallb (fun tp => match snd tp with Lit w => lit_kind w | _ => true end) terminals = true.
Proof. vm_compute. reflexivity. Qed.
Lemma lit_kind_ok t w : literal t = Some w -> lit_kind w = true.
Proof. intros H. apply literal_In in H. now apply (proj1 (forallb_forall _ _) lits_kind) in H. Qed.
(** no string goes on beyond a word *)
Lemma no_longer w s t l r : word w -> (forall c r, s = String c r -> ~ glued w c) -> literal t = Some l -> w +++ s = l +++ r -> String.length l <= String.length w.
Proof.
  intros W G LT E. destruct (le_lt_dec (String.length l) (String.length w)) as [|LG]; auto. exfalso.
  destruct (prefix_len _ _ _ _ E ltac:(lia)) as (e & El & Es). destruct e as [|d e]; [subst l; rewrite append_nil_r in LG; lia|].
  apply lit_kind_ok in LT. subst l. specialize (G d (e +++ r)). rewrite Es in G. specialize (G eq_refl). apply G.
  destruct W as (t0 & LX). apply lexeme_cases in LX.
  assert (NE : exists c w', w = String c w').
  { destruct w as [|c w']; [|eauto]. exfalso. destruct LX as [LX|[[_ LX]|[_ LX]]]; try discriminate LX. apply lit_kind_ok in LX. discriminate. }
  destruct NE as (c & w' & ->). change ((String c w') +++ String d e) with (String c (w' +++ String d e)) in LT.
  assert (AL : forall p x y, all_chars p (x +++ String d y) = true -> p d = true).
  { intros p x y. induction x as [|z x IH]; cbn [String.append all_chars]; intros H; apply andb_true_iff in H as [H1 H2]; auto. }
  cbn [lit_kind] in LT. apply orb_true_iff in LT as [LT|LT]; [apply orb_true_iff in LT as [LT|LT]; [apply orb_true_iff in LT as [LT|LT]; [apply orb_true_iff in LT as [LT|LT]|]|]|].
  - apply andb_true_iff in LT as [A B]. left. exists c, w'. split; auto. apply AL, name_char_spec in B. split; auto. left. now apply letter_spec.
  - apply andb_true_iff in LT as [A B]. left. exists c, w'. split; auto. apply AL, name_char_spec in B. split; auto. right. apply chr_spec in A. now apply ascii_nat.
  - repeat (apply andb_true_iff in LT as [LT _]). apply String.eqb_eq in LT. destruct w'; discriminate LT.
  - apply String.eqb_eq in LT. injection LT as -> LT. destruct w' as [|x w']; [|destruct w'; discriminate LT]. injection LT as -> LT. right; right. split; auto.
  - apply String.eqb_eq in LT. injection LT as -> LT. destruct w' as [|x w']; [|destruct w'; discriminate LT]. injection LT as -> LT. right; right. split; auto.
Qed.
Lemma match_word_ok acc w s t : word w -> (forall c r, s = String c r -> ~ glued w c) -> classify acc w = Some t -> match_word acc (w +++ s) = Some (t, w, s).
Proof.
  intros W G C. pose proof W as (t0 & LX). apply lexeme_cases in LX.
  destruct w as [|c w].
  { exfalso. destruct LX as [LX|[[_ LX]|[_ LX]]]; try discriminate LX. apply lit_kind_ok in LX. discriminate. }
  change ((String c w) +++ s) with (String c (w +++ s)). cbn [match_word].
  assert (LIT : forall t1, In t1 acc -> literal t1 = Some (String c w) -> find (fun tw => String.eqb (snd tw) (String c w)) (literals acc) = Some (t, String c w) ->
                longest (literals acc) (String c (w +++ s)) = Some (t, String c w, s)).
  { intros t1 I L F. assert (I2 : In (t1, String c w) (literals acc)) by (apply literals_In; auto).
    pose proof (after_app (String c w) s) as AA. change (String c w +++ s) with (String c (w +++ s)) in AA.
    destruct (longest_exists _ (String c (w +++ s)) _ _ s I2 AA) as ([[t2 w2] r2] & E).
    pose proof (longest_max _ _ _ _ _ _ _ _ E I2 AA) as LE. pose proof (longest_first _ _ _ _ _ E) as F2. pose proof (longest_Some _ _ _ _ _ E) as (A & _ & I3).
    apply after_Some in A. apply literals_In in I3 as [_ L3]. pose proof (no_longer (String c w) s t2 w2 r2 W G L3 A) as LE2.
    destruct (prefix_len w2 r2 (String c w) s (eq_sym A) LE2) as (e & E1 & E2). destruct e as [|x e].
    - rewrite append_nil_r in E1. subst w2. rewrite F in F2. inversion F2; subst t2. cbn in E2. now subst r2.
    - exfalso. rewrite E1, slen in LE. cbn in LE. lia. }
  unfold classify in C. destruct (is_alpha c) eqn:AL.
  - assert (IN : is_name (String c w) = true).
    { destruct LX as [LX|[[_ LX]|[_ LX]]]; auto.
      - apply lit_kind_ok in LX. cbn [lit_kind is_name] in *. rewrite AL in *. cbn [andb negb orb] in *. rewrite andb_false_r in LX. cbn [andb orb] in LX.
        apply orb_true_iff in LX as [LX|LX]; [|apply String.eqb_eq in LX; inversion LX; subst; discriminate AL].
        apply orb_true_iff in LX as [LX|LX]; [|apply String.eqb_eq in LX; inversion LX; subst; discriminate AL]. rewrite orb_false_r in LX.
        apply orb_true_iff in LX as [LX|LX]; [auto|now apply andb_true_iff in LX].
      - cbn [is_number] in LX. apply andb_true_iff in LX as [LX _]. apply digit_spec in LX. apply letter_spec in AL. unfold letter, digit, between in *. cbn in *. lia. }
    cbn [andb]. destruct (memb String.eqb "NAME" acc) eqn:NM.
    + cbn [is_name] in IN. rewrite AL in IN. cbn [andb] in IN. rewrite span_app; [|exact IN|].
      * destruct (find (fun tw => String.eqb (snd tw) (String c w)) (literals acc)) as [[u w0]|] eqn:F; [inversion C; subst; reflexivity|].
        cbn [andb is_name] in C. rewrite AL, IN in C. cbn [andb] in C. now inversion C.
      * intros d r E. destruct (is_name_char d) eqn:ND; auto. exfalso. apply (G d r E). left. exists c, w. split; auto. split; [left; now apply letter_spec|now apply name_char_spec].
    + assert (DG : is_digit c = false).
      { destruct (is_digit c) eqn:DG; auto. apply digit_spec in DG. apply letter_spec in AL. unfold letter, digit, between in *. cbn in *. lia. }
      rewrite DG. cbn [andb]. destruct (find (fun tw => String.eqb (snd tw) (String c w)) (literals acc)) as [[u w0]|] eqn:F.
      * inversion C; subst u. pose proof F as F'. apply find_lit in F' as (I & L & ->). eapply LIT; eauto.
      * exfalso. cbn [andb] in C. cbn [is_number] in C. rewrite DG in C. cbn [andb] in C. rewrite andb_false_r in C. discriminate.
  - cbn [andb]. destruct (find (fun tw => String.eqb (snd tw) (String c w)) (literals acc)) as [[u w0]|] eqn:F.
    + inversion C; subst u. pose proof F as F'. apply find_lit in F' as (I & L & ->).
      assert (DG : is_digit c = false).
      { destruct (is_digit c) eqn:DG; auto. apply lit_kind_ok in L. cbn [lit_kind] in L. rewrite AL, DG in L. cbn [andb negb orb] in L. rewrite andb_false_r in L. cbn [andb orb] in L.
        apply orb_true_iff in L as [L|L]; [|apply String.eqb_eq in L; inversion L; subst; discriminate DG].
        apply orb_true_iff in L as [L|L]; [|apply String.eqb_eq in L; inversion L; subst; discriminate DG]. rewrite orb_false_r in L.
        apply andb_true_iff in L as [L _]. apply chr_spec in L. apply digit_spec in DG. unfold digit, between in DG. cbn in *. lia. }
      rewrite DG. cbn [andb]. eapply LIT; eauto.
    + cbn [is_name] in C. rewrite AL in C. cbn [andb] in C. rewrite andb_false_r in C. destruct (memb String.eqb "NUMBER" acc && is_number (String c w)) eqn:NU; [|discriminate]. inversion C; subst t.
      apply andb_true_iff in NU as [N1 N2]. pose proof N2 as N3. cbn [is_number] in N3. apply andb_true_iff in N3 as [N3 _]. rewrite N3, N1. cbn [andb].
      apply is_number_ok in N2. destruct (number_from_complete _ N2 s) as (c' & r' & E & DC & NF).
      { intros d r E GD. apply (G d r E). right; left. exists c, w. split; auto. split; [now apply digit_spec|auto]. }
      inversion E; subst c' r'. now rewrite NF.
Qed.
(** a word that is found in a text *)
Lemma match_word_inv acc s t w r : match_word acc s = Some (t, w, r) -> classify acc w = Some t /\ s = w +++ r.
Proof.
  destruct s as [|c s]; [discriminate|]. cbn [match_word]. intros H. destruct (is_alpha c && memb String.eqb "NAME" acc) eqn:E1.
  - destruct (span is_name_char s) as [w1 r1] eqn:SP. apply span_Some in SP as [-> AL]. apply andb_true_iff in E1 as [A B].
    assert (Z : w = String c w1 /\ r = r1 /\ classify acc (String c w1) = Some t).
    { unfold classify. destruct (find (fun tw => String.eqb (snd tw) (String c w1)) (literals acc)) as [[u w0]|]; inversion H; subst; auto. rewrite B. cbn [is_name]. rewrite A, AL. auto. }
    destruct Z as (-> & -> & Z). split; [exact Z|reflexivity].
  - destruct (is_digit c && memb String.eqb "NUMBER" acc) eqn:E2.
    + destruct (number_from s) as [w1 r1] eqn:NF. inversion H; subst. apply andb_true_iff in E2 as [A B].
      apply (number_from_sound (String.length s) _ (str1 c)) in NF as [-> NB]; [|lia|constructor; [constructor; [now apply digit_spec|constructor]|discriminate]].
      split; [|reflexivity]. change (str1 c +++ w1) with (String c w1) in NB. apply is_number_ok in NB. unfold classify.
      destruct (find (fun tw => String.eqb (snd tw) (String c w1)) (literals acc)) as [[u w0]|] eqn:F.
      { exfalso. apply find_lit in F as (_ & L & _). apply literal_not_name in L as (_ & _ & _ & _ & L). congruence. }
      assert (AL : is_alpha c = false). { destruct (is_alpha c) eqn:AL; auto. apply digit_spec in A. apply letter_spec in AL. unfold letter, digit, between in *. cbn in *. lia. }
      cbn [is_name]. rewrite AL. cbn [andb]. rewrite andb_false_r, B, NB. reflexivity.
    + pose proof (longest_first _ _ _ _ _ H) as F. apply longest_Some in H as (A & _). apply after_Some in A. split; auto. unfold classify. now rewrite F.
Qed.

(** ** what lies between the words *)
Lemma skip_comment b s : each (fun c => c <> newline) b -> (s = "" \/ exists r, s = String newline r) -> skip Comment (b +++ s) = skip Between s.
Proof.
  induction 1 as [|c b C H IH]; intros E.
  - change ("" +++ s) with s. destruct E as [->|(r & ->)]; reflexivity.
  - cbn [String.append skip]. destruct (chr 10 c) eqn:Q; [|auto]. exfalso. apply C, ascii_nat. now apply chr_spec in Q.
Qed.
Lemma word_start w : word w -> exists c r, w = String c r /\ is_space c = false /\ chr 59 c = false.
Proof.
  intros (t & LX). apply lexeme_cases in LX as [LX|[[_ LX]|[_ LX]]].
  - assert (X : forallb (fun tp => match snd tp with Lit (String c _) => negb (is_space c) && negb (chr 59 c) | Lit "" => false | _ => true end) terminals = true) by reflexivity.
    apply literal_In in LX. apply (proj1 (forallb_forall _ _) X) in LX. cbn [snd] in LX. destruct w as [|c r]; [discriminate|]. exists c, r. split; auto. apply andb_true_iff in LX as [A B]. split; now apply negb_true_iff.
  - destruct w as [|c r]; [discriminate|]. exists c, r. split; auto. cbn in LX. apply andb_true_iff in LX as [LX _]. apply letter_spec in LX. split.
    + destruct (is_space c) eqn:Q; auto. apply blank_spec in Q. unfold letter, between, blank in *. cbn in *. lia.
    + destruct (chr 59 c) eqn:Q; auto. apply chr_spec in Q. unfold letter, between in *. cbn in *. lia.
  - destruct w as [|c r]; [discriminate|]. exists c, r. split; auto. cbn [is_number] in LX. apply andb_true_iff in LX as [LX _]. apply digit_spec in LX. split.
    + destruct (is_space c) eqn:Q; auto. apply blank_spec in Q. unfold digit, between, blank in *. cbn in *. lia.
    + destruct (chr 59 c) eqn:Q; auto. apply chr_spec in Q. unfold digit, between in *. cbn in *. lia.
Qed.
Lemma spelled_skip ws s : spelled ws s ->
  match ws with
  | [] => skip Between s = ""
  | w :: ws' => exists s', skip Between s = w +++ s' /\ word w /\ (forall c r, s' = String c r -> ~ glued w c) /\ spelled ws' s'
  end.
Proof.
  induction 1 as [|c ws s B H IH|b ws s B E H IH|w ws s W G H IH].
  - reflexivity.
  - apply blank_spec in B. cbn [skip]. now rewrite B.
  - change (";" ++ b ++ s)%string with (String ";" (b +++ s)). cbn [skip]. change (is_space ";") with false. change (chr 59 ";") with true. cbv iota. rewrite skip_comment by auto. exact IH.
  - exists s. change (w ++ s)%string with (w +++ s). split; [|auto]. destruct (word_start w W) as (c & r & -> & A & B). cbn [String.append skip]. now rewrite A, B.
Qed.

(** ** the machines *)
Section Machines.
  Context {V St : Type}.
  Variable leaf : string -> V.
  Variable reduce : nt -> list el -> list V -> St -> St * res V.
  Variable tbl : table.
  Notation wrun := (run tbl lex_words leaf reduce).
  Notation trun := (run tbl lex_text leaf reduce).
  Definition on {I J} (c : @conf V St I) (j : J) : @conf V St J := mkConf (c_stack c) (c_look c) j (c_st c).

  (** the words of a text are read as such *)
  Lemma text_of_words n : forall c s log st' r ws', r <> Err LarkSyntaxError -> spelled (c_input c) s -> wrun n c = Some (st', r, ws') ->
    exists s' used, c_input c = used ++ ws' /\ trun n (on c (s, log)) = Some (st', r, (s', rev used ++ log)).
  Proof.
    induction n as [|n IH]; intros [stack look ws st] s log st' r0 ws' NE SP H; [discriminate|]. cbn [c_input] in *. unfold on. cbn [c_stack c_look c_st]. cbn [run step] in *.
    destruct look as [[t w]|].
    - destruct (get String.eqb t (row (t_act tbl) (top stack))) as [[q|A a]|]; [| |inversion H; subst; contradiction].
      + apply (IH _ s log) in H; [exact H|exact NE|exact SP].
      + destruct (pop (length (syms a)) stack []) as [vs stack']. destruct (reduce A a vs st) as [st1 [v1|e]]; [|inversion H; subst; exists s, []; split; reflexivity].
        destruct (get nt_eqb A (row (t_goto tbl) (top stack'))) as [q|]; [|inversion H; subst; contradiction]. destruct (String.eqb t "$END" && Pos.eqb q (t_end tbl)).
        * inversion H; subst. exists s, []. split; reflexivity.
        * apply (IH _ s log) in H; [exact H|exact NE|exact SP].
    - destruct ws as [|w ws]; cbn [lex_words] in H.
      + apply spelled_skip in SP as SK. cbn beta iota in SK. unfold lex_text. rewrite SK. apply (IH _ s log) in H; [exact H|exact NE|exact SP].
      + destruct (classify (accepted (row (t_act tbl) (top stack))) w) as [t|] eqn:CL; [|inversion H; subst; contradiction].
        apply spelled_skip in SP as (s1 & SK & W & G & SP). unfold lex_text. rewrite SK.
        pose proof (match_word_ok _ _ _ _ W G CL) as MW. destruct (word_start w W) as (c & r & -> & _ & _). change (String c r +++ s1) with (String c (r +++ s1)) in *. cbv beta iota. rewrite MW.
        apply (IH _ s1 (String c r :: log)) in H; [|exact NE|exact SP]. destruct H as (s' & used & E & R). cbn [c_input] in E. exists s', (String c r :: used). split; [cbn; now rewrite E|].
        unfold on in R. cbn [c_stack c_look c_st] in R. cbn [rev]. rewrite <- app_assoc. exact R.
  Qed.
  (** what is read of a text are words *)
  Lemma log_end n : forall (c : @conf V St unit) s log st' r s' log', skip Between s = "" -> trun n (on c (s, log)) = Some (st', r, (s', log')) -> log' = log /\ wrun n (on c []) = Some (st', r, []).
  Proof.
    induction n as [|n IH]; intros [stack look i0 st] s log st' r s' log' SK H; [discriminate|]. unfold on in *. cbn [c_stack c_look c_st] in *. cbn [run step] in *.
    destruct look as [[t w]|].
    - destruct (get String.eqb t (row (t_act tbl) (top stack))) as [[q|A a]|]; [| |inversion H; subst; auto].
      + exact (IH (mkConf _ _ tt _) _ _ _ _ _ _ SK H).
      + destruct (pop (length (syms a)) stack []) as [vs stack']. destruct (reduce A a vs st) as [st1 [v1|e]]; [|inversion H; subst; auto].
        destruct (get nt_eqb A (row (t_goto tbl) (top stack'))) as [q|]; [|inversion H; subst; auto]. destruct (String.eqb t "$END" && Pos.eqb q (t_end tbl)).
        * inversion H; subst; auto.
        * exact (IH (mkConf _ _ tt _) _ _ _ _ _ _ SK H).
    - unfold lex_text in H. rewrite SK in H. cbn [lex_words]. exact (IH (mkConf _ _ tt _) _ _ _ _ _ _ SK H).
  Qed.
  Lemma words_of_text n : forall (c : @conf V St unit) s log st' r s' log', r <> Err LarkSyntaxError -> trun n (on c (s, log)) = Some (st', r, (s', log')) ->
    exists used, log' = rev used ++ log /\ wrun n (on c used) = Some (st', r, []).
  Proof.
    induction n as [|n IH]; intros [stack look i0 st] s log st' r0 s' log' NE H; [discriminate|]. unfold on in *. cbn [c_stack c_look c_st] in *. cbn [run step] in H.
    destruct look as [[t w]|].
    - destruct (get String.eqb t (row (t_act tbl) (top stack))) as [[q|A a]|] eqn:E; [| |injection H as _ Z _ _; congruence].
      + destruct (IH (mkConf _ _ tt _) _ _ _ _ _ _ NE H) as (used & L & R). exists used. split; auto. cbn [run step]. rewrite E. exact R.
      + destruct (pop (length (syms a)) stack []) as [vs stack'] eqn:PP. destruct (reduce A a vs st) as [st1 [v1|e]] eqn:RE; [|inversion H; subst; exists []; split; auto; cbn [run step]; now rewrite E, PP, RE].
        destruct (get nt_eqb A (row (t_goto tbl) (top stack'))) as [q|] eqn:G; [|injection H as _ Z _ _; congruence]. destruct (String.eqb t "$END" && Pos.eqb q (t_end tbl)) eqn:FIN.
        * inversion H; subst. exists []. split; auto. cbn [run step]. now rewrite E, PP, RE, G, FIN.
        * destruct (IH (mkConf _ _ tt _) _ _ _ _ _ _ NE H) as (used & L & R). exists used. split; auto. cbn [run step]. rewrite E, PP, RE, G, FIN. exact R.
    - unfold lex_text in H. destruct (skip Between s) as [|c0 s0] eqn:SK.
      + destruct (log_end n (mkConf stack (Some ("$END", "")) tt st) _ _ _ _ _ _ SK H) as [-> R]. exists []. split; auto.
      + destruct (match_word (accepted (row (t_act tbl) (top stack))) (String c0 s0)) as [[[t w] r]|] eqn:MW; [|injection H as _ Z _ _; congruence]. apply match_word_inv in MW as [CL _].
        destruct (IH (mkConf _ _ tt _) _ _ _ _ _ _ NE H) as (used & L & R). exists (w :: used). split; [cbn [rev]; now rewrite <- app_assoc|]. cbn [run step lex_words]. rewrite CL. exact R.
  Qed.
End Machines.
