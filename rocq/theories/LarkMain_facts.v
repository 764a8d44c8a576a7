(** The machine, its trees and its texts, put together. *)
From Coq Require Import String Ascii List Bool BinNat PArith FMapPositive Arith Lia.
From Verif Require Import Py Names Lexer Lex_facts Spec_Grammar Lark LarkTables Spec_Lark Py_facts Words_facts LarkLR_facts LarkSound_facts LarkCheck_facts LarkFailed_facts LarkText_facts LarkTree_facts.
Import ListNotations.
Open Scope string_scope.
Open Scope list_scope.

(** ** the result of a run is unique *)
Lemma run_more {V St I} tbl (lexer : list string -> I -> lexed I) (leaf : string -> V) (reduce : nt -> list el -> list V -> St -> St * res V) n m : forall c r,
  run tbl lexer leaf reduce n c = Some r -> run tbl lexer leaf reduce (n + m) c = Some r.
Proof.
  induction n as [|n IH]; intros c r H; [discriminate|]. cbn [Nat.add run] in *. destruct (step tbl lexer leaf reduce c); auto.
Qed.
Lemma returns_det {V St I} tbl (lexer : list string -> I -> lexed I) (leaf : string -> V) (reduce : nt -> list el -> list V -> St -> St * res V) c r r' :
  returns tbl lexer leaf reduce c r -> returns tbl lexer leaf reduce c r' -> r = r'.
Proof.
  intros [n H] [m K]. apply run_more with (m := m) in H. apply run_more with (m := n) in K. rewrite Nat.add_comm in K. congruence.
Qed.

(** ** the value of a tree *)
Lemma ptree_ind' (P : ptree -> Prop) : (forall w, P (PLeaf w)) -> (forall n cs, Forall P cs -> P (PNode n cs)) -> P PNone -> forall t, P t.
Proof.
  intros A B C. fix IH 1. intros [w|n cs|]; [apply A| |apply C]. apply B. induction cs as [|c cs H]; [constructor|constructor; [apply IH|exact H]].
Qed.
Lemma btree_ind' (P : btree -> Prop) : (forall w, P (BLeaf w)) -> (forall A a ts, Forall P ts -> P (BNode A a ts)) -> forall t, P t.
Proof.
  intros A B. fix IH 1. intros [w|N a ts]; [apply A|]. apply B. induction ts as [|c ts H]; [constructor|constructor; [apply IH|exact H]].
Qed.
Section Visit.
  Context {V St : Type}.
  Variables (leaf : string -> V) (none : V) (callback : string -> list V -> St -> St * res V).
  Lemma visit_evalP t : forall st, evalP leaf none callback t st = visit leaf none (call callback) t st.
  Proof.
    induction t as [w|n cs IH|] using ptree_ind'; intros st; [reflexivity| |reflexivity]. cbn [evalP visit]. unfold seqm at 1.
    match goal with |- (let '(_, _) := ?x in _) = match ?y with _ => _ end => assert (E : x = y) end.
    { revert st. induction IH as [|c cs C _ IH]; intros st; [reflexivity|]. cbn [evalm]. unfold seqm. rewrite C. destruct (visit leaf none (call callback) c st) as [st1 [v|e]]; [|reflexivity].
      rewrite IH. match goal with |- context [match ?y with _ => _ end = _] => idtac | _ => idtac end.
      match goal with |- (let '(_, _) := ?x in _) = _ => destruct x as [st2 [vs|e]]; reflexivity end. }
    rewrite E. match goal with |- (let '(_, _) := ?x in _) = _ => destruct x as [st2 [vs|e]]; reflexivity end.
  Qed.
End Visit.

(** ** the words of a text *)
Lemma strung_skip us : forall s k, strung us (skip k s) ->
  match k with Between => strung us s | Comment => exists b s', s = b +++ s' /\ each (fun c => c <> newline) b /\ (s' = "" \/ exists r, s' = String newline r) /\ strung us s' end.
Proof.
  induction s as [|c s IH]; intros k H.
  - destruct k; [exact H|]. exists "", "". split; [reflexivity|]. split; [constructor|]. auto.
  - destruct k; cbn [skip] in H.
    + destruct (is_space c) eqn:SP; [apply St_blank; [now apply blank_spec|apply (IH Between); exact H]|]. destruct (chr 59%N c) eqn:SC; [|exact H].
      apply (IH Comment) in H as (b & s' & -> & B & E & K). apply chr_spec in SC. change 59%N with (N.of_nat (nat_of_ascii ";"%char)) in SC. rewrite Nnat.Nat2N.id in SC. apply ascii_nat in SC as ->.
      exact (St_comment b us s' B E K).
    + destruct (chr 10%N c) eqn:NL.
      * exists "", (String c s). split; [reflexivity|]. split; [constructor|]. apply chr_spec in NL. assert (c = newline) as -> by (apply ascii_nat; exact NL). split; [right; eauto|]. apply St_blank; [|apply (IH Between); exact H]. cbn. auto.
      * apply (IH Comment) in H as (b & s' & -> & B & E & K). exists (String c b), s'. split; [reflexivity|]. split; [|auto]. constructor; auto. intros ->. discriminate NL.
Qed.
Section Strung.
  Context {V St : Type}.
  Variable leaf : string -> V.
  Variable reduce : nt -> list el -> list V -> St -> St * res V.
  Variable tbl : table.
  Notation trun := (run tbl lex_text leaf reduce).
  Lemma text_strung n : forall (c : conf) st' v s' log', trun n c = Some (st', Ok v, (s', log')) ->
    exists used, log' = rev used ++ snd (c_input c) /\
                 forall us, strung us s' -> strung (used ++ us) (fst (c_input c)).
  Proof.
    induction n as [|n IH]; intros [stack look [s log] st] st' v s' log' H; [discriminate|]. cbn [c_input fst snd] in *. cbn [run step] in H.
    destruct look as [[t w]|].
    - destruct (get String.eqb t (row (t_act tbl) (top stack))) as [[q|A a]|]; [| |inversion H].
      + apply IH in H. exact H.
      + destruct (pop (length (syms a)) stack []) as [vs stack']. destruct (reduce A a vs st) as [st1 [v1|e]]; [|inversion H].
        destruct (get nt_eqb A (row (t_goto tbl) (top stack'))) as [q|]; [|inversion H]. destruct (String.eqb t "$END" && Pos.eqb q (t_end tbl)).
        * inversion H; subst. exists []. split; auto.
        * apply IH in H. exact H.
    - unfold lex_text in H. destruct (skip Between s) as [|c0 s0] eqn:SK; [apply IH in H; exact H|].
      destruct (match_word (accepted (row (t_act tbl) (top stack))) (String c0 s0)) as [[[t w] r]|] eqn:MW; [|inversion H].
      apply match_word_inv in MW as [CL E]. apply IH in H as (used & L & K). cbn [c_input fst snd] in *. exists (w :: used). split; [cbn [rev]; now rewrite <- app_assoc|].
      intros us U. apply (strung_skip _ _ Between). rewrite SK, E. apply (St_word w (used ++ us) r); [|now apply K]. apply classify_ok in CL. destruct CL as (_ & _ & CL & _). exists t. exact CL.
  Qed.
  Lemma skip_split s : forall k c r, skip k s = String c r ->
    match k with
    | Between => exists b, s = b +++ String c r /\ forall us x, strung us x -> strung us (b +++ x)
    | Comment => exists b1 b2, s = b1 +++ String newline (b2 +++ String c r) /\ each (fun c => c <> newline) b1 /\ forall us x, strung us x -> strung us (b2 +++ x)
    end.
  Proof.
    induction s as [|c0 s IH]; intros k c r H; [destruct k; discriminate|]. destruct k; cbn [skip] in H.
    - destruct (is_space c0) eqn:SP.
      { apply (IH Between) in H as (b & -> & K). exists (String c0 b). split; [reflexivity|]. intros us x X. apply St_blank; [now apply blank_spec|auto]. }
      destruct (chr 59%N c0) eqn:SC; [|injection H as -> ->; exists ""; split; [reflexivity|auto]].
      apply (IH Comment) in H as (b1 & b2 & -> & E & K). apply chr_spec in SC. change 59%N with (N.of_nat (nat_of_ascii ";"%char)) in SC. rewrite Nnat.Nat2N.id in SC. apply ascii_nat in SC as ->.
      exists (";" +++ b1 +++ String newline b2). split; [cbn; f_equal; now rewrite append_assoc|]. intros us x X. cbn [String.append]. rewrite append_assoc.
      apply (St_comment b1 us (String newline (b2 +++ x)) E); [right; eauto|]. apply St_blank; [cbn; auto|auto].
    - destruct (chr 10%N c0) eqn:NL.
      + apply (IH Between) in H as (b & -> & K). apply chr_spec in NL. assert (c0 = newline) as -> by (apply ascii_nat; exact NL). exists "", b. split; [reflexivity|]. split; [constructor|exact K].
      + apply (IH Comment) in H as (b1 & b2 & -> & E & K). exists (String c0 b1), b2. split; [reflexivity|]. split; [|exact K]. constructor; auto. intros ->. discriminate NL.
  Qed.
  (** the words that were read are the beginning of the text *)
  Lemma begun n : forall (c : conf) st' r s' log', trun n c = Some (st', r, (s', log')) ->
    exists used b, log' = rev used ++ snd (c_input c) /\ fst (c_input c) = b +++ s' /\ strung used b.
  Proof.
    induction n as [|n IH]; intros [stack look [s log] st] st' r s' log' H; [discriminate|]. cbn [c_input fst snd] in *. cbn [run step] in H.
    assert (Z : s' = s -> log' = log -> exists used b, log' = rev used ++ log /\ s = b +++ s' /\ strung used b) by (intros -> ->; exists [], ""; split; [reflexivity|split; [reflexivity|constructor]]).
    destruct look as [[t w]|].
    - destruct (get String.eqb t (row (t_act tbl) (top stack))) as [[q|A a]|]; [| |inversion H; subst; auto].
      + apply IH in H. exact H.
      + destruct (pop (length (syms a)) stack []) as [vs stack']. destruct (reduce A a vs st) as [st1 [v1|e]]; [|inversion H; subst; auto].
        destruct (get nt_eqb A (row (t_goto tbl) (top stack'))) as [q|]; [|inversion H; subst; auto]. destruct (String.eqb t "$END" && Pos.eqb q (t_end tbl)).
        * inversion H; subst; auto.
        * apply IH in H. exact H.
    - unfold lex_text in H. destruct (skip Between s) as [|c0 s0] eqn:SK; [apply IH in H; exact H|].
      destruct (match_word (accepted (row (t_act tbl) (top stack))) (String c0 s0)) as [[[t w] rr]|] eqn:MW; [|inversion H; subst; auto].
      apply match_word_inv in MW as [CL E]. apply IH in H as (used & b & L & K & X). cbn [c_input fst snd] in *. apply (skip_split _ Between) in SK as (b0 & -> & K0).
      exists (w :: used), (b0 +++ w +++ b). split; [cbn [rev]; now rewrite <- app_assoc|]. split; [rewrite E, K, !append_assoc; reflexivity|]. apply K0, St_word; [|exact X].
      apply classify_ok in CL. destruct CL as (_ & _ & CL & _). exists t. exact CL.
  Qed.
  Lemma end_strung n : forall (c : conf) st' v s' log', trun n c = Some (st', Ok v, (s', log')) ->
    (forall w, c_look c = Some ("$END", w) -> skip Between (fst (c_input c)) = "") -> skip Between s' = "".
  Proof.
    induction n as [|n IH]; intros [stack look [s log] st] st' v s' log' H X; [discriminate|]. cbn [c_input c_look fst snd] in *. cbn [run step] in H.
    destruct look as [[t w]|].
    - destruct (get String.eqb t (row (t_act tbl) (top stack))) as [[q|A a]|]; [| |inversion H].
      + apply IH in H; [exact H|discriminate].
      + destruct (pop (length (syms a)) stack []) as [vs stack']. destruct (reduce A a vs st) as [st1 [v1|e]]; [|inversion H].
        destruct (get nt_eqb A (row (t_goto tbl) (top stack'))) as [q|]; [|inversion H]. destruct (String.eqb_spec t "$END") as [->|NE]; cbn [andb] in H.
        * destruct (Pos.eqb q (t_end tbl)); [inversion H; subst; exact (X _ eq_refl)|]. apply IH in H; [exact H|exact X].
        * apply IH in H; [exact H|exact X].
    - unfold lex_text in H. destruct (skip Between s) as [|c0 s0] eqn:SK; [apply IH in H; [exact H|intros; exact SK]|].
      destruct (match_word (accepted (row (t_act tbl) (top stack))) (String c0 s0)) as [[[t w] r]|] eqn:MW; [|inversion H].
      apply IH in H; [exact H|]. cbn [c_look]. apply match_word_inv in MW as [CL _]. apply classify_ok in CL. destruct CL as (_ & NE & _). intros w' E; inversion E; subst; contradiction.
  Qed.
End Strung.

(** ** every tree is a derivation in the grammar of the file *)
Notation derives := (derives lexeme rules).
Lemma star_one e us : derives e us -> derives (Star e) us.
Proof. intros H. rewrite <- (app_nil_r us). apply D_Star_cons; [exact H|apply D_Star_nil]. Qed.
Lemma star_snoc e us ws : derives (Star e) us -> derives e ws -> derives (Star e) (us ++ ws).
Proof.
  remember (Star e) as x eqn:E. intros H K. revert E. induction H; intros E; inversion E; subst.
  - now apply star_one.
  - rewrite <- app_assoc. apply D_Star_cons; auto.
Qed.
Lemma plus_star e ws : derives (Plus e) ws -> derives (Star e) ws.
Proof. inversion 1; subst. now apply D_Star_cons. Qed.
Lemma plus_snoc e us ws : derives (Plus e) us -> derives e ws -> derives (Plus e) (us ++ ws).
Proof. inversion 1; subst. intros K. rewrite <- app_assoc. apply D_Plus; auto. now apply star_snoc. Qed.
(** the expression [x] of the file has the alternatives of [y] *)
Definition covers (x y : sym) : bool :=
  sym_eqb x y ||
  match x, y with
  | Alt l, Alt m => forallb (fun y => existsb (sym_eqb y) l) m
  | Alt l, y => existsb (sym_eqb y) l
  | _, _ => false
  end.
Lemma sym_eqb_eq a b : sym_eqb a b = true -> a = b.
Proof. intros H. assert (K : nt_eqb (Rep a) (Rep b) = true) by exact H. apply nt_eqb_eq in K. congruence. Qed.
Lemma covers_ok x y ws : covers x y = true -> derives y ws -> derives x ws.
Proof.
  unfold covers. intros H K. apply orb_true_iff in H as [H|H]; [apply sym_eqb_eq in H; congruence|].
  destruct x as [| | |l| | |]; try discriminate.
  assert (Z : forall y, existsb (sym_eqb y) l = true -> derives y ws -> derives (Alt l) ws).
  { clear. intros y H K. apply existsb_exists in H as (z & I & E). apply sym_eqb_eq in E as <-. now apply D_Alt with y. }
  destruct y as [| | |m| | |]; try (now apply Z with (1 := H)). inversion K; subst. rewrite forallb_forall in H. eauto.
Qed.
Lemma rules_cover : forallb (fun r => existsb (fun q => String.eqb (fst q) (base (fst (fst r))) && covers (snd q) (er_sym (snd (fst r)))) rules) lark_rules = true.
Proof. vm_compute. reflexivity. Qed.
Lemma tree_derives e cs w nx : tree word_at e cs w nx -> derives (er_sym e) (map snd w).
Proof.
  induction 1 as [t w nx W|n e no cs w nx I NO K IH|nx|e l c1 c2 u v nx K1 IH1 K2 IH2|e l cs w nx I K IH|e nx|e cs w nx K IH|e nx|e cs w nx K IH|e cs w nx K IH|e c1 c2 u v nx K1 IH1 K2 IH2]; cbn [er_sym map snd] in *; rewrite ?map_app.
  - apply D_T. apply W.
  - pose proof rules_cover as C. rewrite forallb_forall in C. specialize (C _ I). apply existsb_exists in C as ([m f] & J & E). cbn [fst snd] in E. apply andb_true_iff in E as [E1 E2]. apply String.eqb_eq in E1 as ->.
    apply D_N with f; [exact J|]. now apply covers_ok with (1 := E2).
  - apply D_Seq_nil.
  - apply D_Seq_cons; auto.
  - apply D_Alt with (er_sym e); [|exact IH]. clear -I. induction l as [|x l IH]; [destruct I|]. destruct I as [->|I]; [now left|right; auto].
  - apply D_Opt_none.
  - now apply D_Opt_some.
  - apply D_Star_nil.
  - now apply plus_star.
  - rewrite <- (app_nil_r (map snd w)). apply D_Plus; [exact IH|apply D_Star_nil].
  - now apply plus_snoc.
Qed.

(** ** at most one tree *)
Definition grow (A : nt) (a : list el) (ts : list btree) (st : unit) : unit * res btree := (st, Ok (BNode A a ts)).
Lemma grow_id t : evalT BLeaf grow t tt = (tt, Ok t).
Proof.
  induction t as [w|A a ts IH] using btree_ind'; [reflexivity|]. cbn [evalT]. unfold seqm.
  assert (E : evalm (evalT BLeaf grow) ts tt = (tt, Ok ts)).
  { clear -IH. induction IH as [|t ts H _ IH]; [reflexivity|]. cbn [evalm]. unfold seqm. now rewrite H, IH. }
  rewrite E. reflexivity.
Qed.
Lemma one_tree start tbl t t' w w' : parser start tbl -> D word_at (BN (Rule start)) t w the_end -> D word_at (BN (Rule start)) t' w' the_end -> map snd w = map snd w' -> t = t'.
Proof.
  intros P A B E. destruct (words_complete BLeaf grow start tbl P t w tt A) as [i R]. destruct (words_complete BLeaf grow start tbl P t' w' tt B) as [i' R']. rewrite <- E in R'.
  rewrite grow_id in R, R'. pose proof (returns_det _ _ _ _ _ _ _ R R') as Q. congruence.
Qed.

(** ** the parsers *)
Section Parsers.
  Context {V St : Type}.
  Variables (leaf : string -> V) (none : V) (splice : list V -> V) (spliced : V -> list V).
  Hypothesis spliced_splice : forall l, spliced (splice l) = l.
  Variable callback : string -> list V -> St -> St * res V.
  Notation reduce := (build none splice spliced callback).
  Variables (start : string) (tbl : table) (P : parser start tbl).
  Lemma text_sound s st st' v s' log : returns tbl lex_text leaf reduce (begin (s, []) st) (st', Ok v, (s', log)) ->
    strung (rev log) s /\
    exists p w, tree word_at (N start) [p] w the_end /\ map snd w = rev log /\ visit leaf none (call callback) p st = (st', Ok v).
  Proof.
    intros [n H]. split.
    - destruct (text_strung leaf reduce tbl n _ _ _ _ _ H) as (used & L & K). cbn in L, K. rewrite app_nil_r in L. rewrite L, rev_involutive, <- (app_nil_r used). apply K.
      apply (strung_skip _ _ Between). rewrite (end_strung leaf reduce tbl n _ _ _ _ _ H); [apply St_end|discriminate].
    - destruct (words_of_text leaf reduce tbl n (mkConf [] None tt st) s [] st' (Ok v) s' log ltac:(discriminate) H) as (used & -> & R). rewrite app_nil_r, rev_involutive.
      assert (RR : returns tbl lex_words leaf reduce (begin used st) (st', Ok v, [])) by (exists n; exact R).
      destruct (words_sound leaf reduce start tbl P _ _ _ _ _ RR) as (_ & t & w & DD & E & EV).
      destruct (rule_eval leaf none splice spliced spliced_splice callback _ _ _ _ _ DD) as (p & PT & PE). exists p, w.
      split; [apply rule_tree; exists t; auto|]. split; [exact E|]. now rewrite <- visit_evalP, <- PE.
  Qed.
  Lemma text_failed s st st' e s' log : returns tbl lex_text leaf reduce (begin (s, []) st) (st', Err e, (s', log)) -> e <> LarkSyntaxError ->
    exists p w more l, tree word_at (N start) [p] (w ++ more) the_end /\ rev log = map snd w ++ l /\ length l <= 1 /\ visit leaf none (call callback) p st = (st', Err e).
  Proof.
    intros [n H] NE. destruct (words_of_text leaf reduce tbl n (mkConf [] None tt st) s [] st' (Err e) s' log ltac:(congruence) H) as (used & -> & R). rewrite app_nil_r, rev_involutive.
    assert (RR : returns tbl lex_words leaf reduce (begin used st) (st', Err e, [])) by (exists n; exact R).
    destruct (words_failed leaf reduce start tbl P _ _ _ _ _ RR) as [|(t & w & more & l & DD & EV & E & LL)]; [contradiction|].
    destruct (rule_eval leaf none splice spliced spliced_splice callback _ _ _ _ _ DD) as (p & PT & PE). exists p, w, more, l. rewrite app_nil_r in E.
    split; [apply rule_tree; exists t; auto|]. split; [exact E|]. split; [exact LL|]. now rewrite <- visit_evalP, <- PE.
  Qed.
  Lemma text_complete p w s st st' r : tree word_at (N start) [p] w the_end -> spelled (map snd w) s ->
    visit leaf none (call callback) p st = (st', r) -> r <> Err LarkSyntaxError ->
    exists s' log rest, map snd w = rev log ++ rest /\ (forall v, r = Ok v -> rest = []) /\ returns tbl lex_text leaf reduce (begin (s, []) st) (st', r, (s', log)).
  Proof.
    intros T SP EV NE. apply rule_tree in T as (t & DD & PT). destruct (rule_eval leaf none splice spliced spliced_splice callback _ _ _ _ _ DD) as (p' & PT' & PE).
    assert (p' = p) as -> by congruence. destruct (words_complete leaf reduce start tbl P t w st DD) as (i & n & R). rewrite PE, visit_evalP, EV in R.
    destruct (text_of_words leaf reduce tbl n (begin (map snd w) st) s [] st' r i NE SP R) as (s' & used & U & RR). exists s', (rev used), i. rewrite app_nil_r in RR.
    split; [rewrite rev_involutive; exact U|]. split; [|exists n; exact RR]. intros v ->. eapply (words_sound leaf reduce start tbl P). exists n. exact R.
  Qed.
  Lemma one_ptree p p' w w' : tree word_at (N start) [p] w the_end -> tree word_at (N start) [p'] w' the_end -> map snd w = map snd w' -> p = p'.
  Proof.
    intros A B E. apply rule_tree in A as (t & A & PA). apply rule_tree in B as (t' & B & PB). pose proof (one_tree _ _ _ _ _ _ P A B E). subst. congruence.
  Qed.
End Parsers.
