(** The machine of Lark.v stops on every text. *)
From Coq Require Import String Ascii List Bool BinNat PArith FMapPositive Arith Lia.
From Verif Require Import Py Names Lexer Spec_Grammar Lark LarkTables LarkCert Spec_Lark Py_facts Words_facts Lex_facts LarkLR_facts LarkSound_facts LarkCheck_facts LarkText_facts.
Import ListNotations.
Open Scope string_scope.
Open Scope list_scope.

(** ** a measure that every reduction makes smaller, when the tables pass a check *)
Section Check.
  Variable tbl : table.
  (** the weight of a symbol, and of what an empty production may add after it *)
  Variable rank : list (nt * (nat * nat)).
  Definition heavy : nat := 100.
  Definition extra : nat := 20.
  Definition weight (x : bsym) : nat := match x with BT _ => heavy | BN A => match get nt_eqb A rank with Some (w, _) => w | None => 0 end end.
  Definition weights (l : list bsym) : nat := fold_right (fun x n => weight x + n) 0 l.
  Definition room (A : nt) : nat := match get nt_eqb A rank with Some (_, m) => m | None => 0 end.
  Definition empty_act (a : act) : bool := match a with Reduce _ b => match syms b with [] => true | _ => false end | Shift _ => false end.
  Definition pending (a : option act) : nat := match a with Some a => if empty_act a then extra else 0 | None => 0 end.
  Definition check_stop : bool :=
    forallb (fun r => forallb (fun ta => match snd ta with
                                         | Reduce A b => Nat.ltb (weight (BN A) + room A) (weights (syms b) + pending (Some (snd ta)))
                                         | Shift _ => true
                                         end) (snd r)) (PositiveMap.elements (t_act tbl))
    && forallb (fun r => forallb (fun Aq => Nat.leb extra (room (fst Aq)) || negb (existsb (fun ta => empty_act (snd ta)) (row (t_act tbl) (snd Aq)))) (snd r))
               (PositiveMap.elements (t_goto tbl)).
End Check.
Lemma weights_app rank l m : weights rank (l ++ m) = weights rank l + weights rank m.
Proof. induction l as [|x l IH]; [reflexivity|]. change (weight rank x + weights rank (l ++ m) = weight rank x + weights rank l + weights rank m). rewrite IH. lia. Qed.
Lemma weights_rev rank l : weights rank (rev l) = weights rank l.
Proof. induction l as [|x l IH]; [reflexivity|]. cbn [rev]. rewrite weights_app, IH. change (weights rank l + (weight rank x + 0) = weight rank x + weights rank l). lia. Qed.

Section Stop.
  Context {V St I : Type}.
  Variable lexer : list string -> I -> lexed I.
  Variable leaf : string -> V.
  Variable reduce : nt -> list el -> list V -> St -> St * res V.
  Variable tbl : table.
  Variables (dom : PositiveMap.t (list (nt * list string))) (first : list (nt * (bool * list string)))
            (past : PositiveMap.t (list bsym)) (names : PositiveMap.t (list string)) (start : string)
            (rank : list (nt * (nat * nat))).
  Hypothesis C4 : check_sound tbl dom first past names start = true.
  Hypothesis C5 : check_stop tbl rank = true.
  Variable size : I -> nat.
  Hypothesis lexer_size : forall acc i t w i', lexer acc i = LWord t w i' -> size i' < size i.
  Notation step := (step tbl lexer leaf reduce).
  Notation returns := (returns tbl lexer leaf reduce).

  Inductive path : list (positive * V) -> list bsym -> Prop :=
  | Path_nil : path [] []
  | Path_cons q v s x xs : path s xs -> tr tbl (top s) x = Some q -> path ((q, v) :: s) (x :: xs).
  Lemma path_past s xs : path s xs -> exists r, xs = row past (top s) ++ r.
  Proof.
    induction 1 as [|q v s x xs K IH E].
    - destruct (c_rest tbl dom first past names start C4) as (_ & P & _). exists []. cbn [top]. now rewrite P.
    - destruct IH as [r IH]. eapply tr_ok in E; [|exact C4]. unfold to_ok in E. apply andb_true_iff in E as [_ E]. apply prefix_app in E as [r' E].
      exists (r' ++ r). rewrite app_assoc. cbn [top]. rewrite IH. change (x :: row past (top s) ++ r = (row past q ++ r') ++ r). rewrite <- E. reflexivity.
  Qed.
  Lemma pop_path n : forall s xs vs vs' s', path s xs -> n <= length xs -> pop n s vs = (vs', s') -> path s' (skipn n xs).
  Proof.
    induction n as [|n IH]; intros s xs vs vs' s' K L H; [inversion H; subst; exact K|].
    destruct K as [|q v s x xs K E]; [cbn in L; lia|]. cbn [pop] in H. cbn [skipn]. apply IH with (2 := le_S_n _ _ L) (3 := H). exact K.
  Qed.
  Lemma returns_step c c' r : step c = inl c' -> returns c' r -> returns c r.
  Proof. intros H [n E]. exists (S n). cbn [Lark.run]. now rewrite H. Qed.
  Lemma returns_stop c r : step c = inr r -> returns c r.
  Proof. intros H. exists 1. cbn [Lark.run]. now rewrite H. Qed.

  Lemma act_weight q t A a : get String.eqb t (row (t_act tbl) q) = Some (Reduce A a) ->
    weight rank (BN A) + room rank A < weights rank (syms a) + pending (get String.eqb t (row (t_act tbl) q)).
  Proof.
    intros G. rewrite G. apply get_eqb_In in G; [|intros a' b'; apply String.eqb_eq]. apply row_In in G as (r & I1 & I2 & _).
    unfold check_stop in C5. apply andb_true_iff in C5 as [C _]. apply (proj1 (forallb_forall _ _) C) in I1. apply (proj1 (forallb_forall _ _) I1) in I2. cbn [snd] in I2. now apply Nat.ltb_lt in I2.
  Qed.
  Lemma goto_room q A q' t : get nt_eqb A (row (t_goto tbl) q) = Some q' -> pending (get String.eqb t (row (t_act tbl) q')) <= room rank A.
  Proof.
    intros G. apply get_eqb_In in G; [|intros a' b'; apply nt_eqb_eq]. apply row_In in G as (r & I1 & I2 & _).
    unfold check_stop in C5. apply andb_true_iff in C5 as [_ C]. apply (proj1 (forallb_forall _ _) C) in I1. apply (proj1 (forallb_forall _ _) I1) in I2. cbn [fst snd] in I2.
    unfold pending. destruct (get String.eqb t (row (t_act tbl) q')) as [a|] eqn:E; [|lia]. destruct (empty_act a) eqn:EA; [|lia].
    apply orb_true_iff in I2 as [I2|I2]; [now apply Nat.leb_le in I2|]. exfalso. apply negb_true_iff in I2. apply get_eqb_In in E; [|intros a' b'; apply String.eqb_eq].
    assert (X : existsb (fun ta => empty_act (snd ta)) (row (t_act tbl) q') = true) by (apply existsb_exists; exists (t, a); auto). congruence.
  Qed.

  Definition stops (c : conf) : Prop := exists r, returns c r.
  Lemma reductions n : forall stack xs t w i st, path stack xs -> weights rank xs + pending (get String.eqb t (row (t_act tbl) (top stack))) < n ->
    (forall stack' xs' st', path stack' xs' -> t <> "$END" -> stops (mkConf stack' None i st')) -> stops (mkConf stack (Some (t, w)) i st).
  Proof.
    induction n as [|n IH]; intros stack xs t w i st K L NEXT; [lia|].
    destruct (step (mkConf stack (Some (t, w)) i st)) as [c'|r] eqn:ST; [|exists r; now apply returns_stop].
    cbn [Lark.step] in ST. destruct (get String.eqb t (row (t_act tbl) (top stack))) as [[q|A a]|] eqn:G; [| |discriminate].
    - inversion ST; subst c'. destruct (NEXT ((q, leaf w) :: stack) (BT t :: xs) st) as [r R].
      + apply Path_cons; auto. cbn [tr]. now rewrite G.
      + intros ->. eapply c_act in G; [|exact C4]. discriminate G.
      + exists r. apply returns_step with (2 := R). cbn [Lark.step]. now rewrite G.
    - destruct (pop (length (syms a)) stack []) as [vs stack'] eqn:P. destruct (reduce A a vs st) as [st' [v|e]] eqn:RE; [|discriminate].
      destruct (get nt_eqb A (row (t_goto tbl) (top stack'))) as [q'|] eqn:GO; [|discriminate]. destruct (String.eqb t "$END" && Pos.eqb q' (t_end tbl)) eqn:FIN; [discriminate|]. inversion ST; subst c'.
      pose proof (act_weight _ _ _ _ G) as W. rewrite G in W. pose proof (goto_room _ _ _ t GO) as R.
      assert (X : exists r, xs = rev (syms a) ++ r).
      { eapply c_act in G; [|exact C4]. unfold action_ok in G. cbn [snd] in G. apply andb_true_iff in G as [G _]. apply andb_true_iff in G as [G _]. apply prefix_app in G as [r1 G].
        destruct (path_past _ _ K) as [r2 ->]. exists (r1 ++ r2). now rewrite app_assoc, <- G. }
      destruct X as [ys ->]. rewrite weights_app, weights_rev in L.
      assert (K' : path stack' ys).
      { assert (LE : length (syms a) <= length (rev (syms a) ++ ys)) by (rewrite app_length, rev_length; lia).
        pose proof (pop_path _ _ _ _ _ _ K LE P) as KP. rewrite <- (rev_length (syms a)) in KP at 1. rewrite skipn_app, skipn_all, Nat.sub_diag in KP. exact KP. }
      destruct (IH ((q', v) :: stack') (BN A :: ys) t w i st') as [r RR].
      + apply Path_cons; auto.
      + cbn [top]. change (weights rank (BN A :: ys)) with (weight rank (BN A) + weights rank ys). lia.
      + exact NEXT.
      + exists r. apply returns_step with (2 := RR). cbn [Lark.step]. now rewrite G, P, RE, GO, FIN.
  Qed.
  Lemma all_stop n : forall stack xs i st, path stack xs -> size i < n -> stops (mkConf stack None i st).
  Proof.
    induction n as [|n IH]; intros stack xs i st K L; [lia|].
    destruct (lexer (accepted (row (t_act tbl) (top stack))) i) as [t w i'| |] eqn:LX.
    - apply lexer_size in LX as SZ. destruct (reductions _ stack xs t w i' st K (Nat.lt_succ_diag_r _)) as [r R].
      + intros stack' xs' st' K' _. apply IH with xs'; [exact K'|lia].
      + exists r. apply returns_step with (2 := R). cbn [Lark.step]. now rewrite LX.
    - destruct (reductions _ stack xs "$END" "" i st K (Nat.lt_succ_diag_r _)) as [r R].
      + intros stack' xs' st' K' NE. contradiction.
      + exists r. apply returns_step with (2 := R). cbn [Lark.step]. now rewrite LX.
    - eexists. apply returns_stop. cbn [Lark.step]. rewrite LX. reflexivity.
  Qed.
  Lemma begin_stops i st : stops (begin i st).
  Proof. apply all_stop with (n := S (size i)) (xs := []); [constructor|lia]. Qed.
End Stop.

(** ** the lexers consume their input *)
Lemma slength_app a b : String.length (a +++ b) = String.length a + String.length b.
Proof. induction a; cbn; auto. Qed.
Lemma skip_le s : forall k, String.length (skip k s) <= String.length s.
Proof.
  induction s as [|c s IH]; intros k; [destruct k; auto|]. destruct k; cbn [skip]; repeat match goal with |- context [if ?b then _ else _] => destruct b end; cbn [String.length]; auto.
Qed.
Lemma text_size acc i t w i' : lex_text acc i = LWord t w i' -> String.length (fst i') < String.length (fst i).
Proof.
  destruct i as [s log]. unfold lex_text. destruct (skip Between s) as [|c0 s0] eqn:SK; [discriminate|].
  destruct (match_word acc (String c0 s0)) as [[[t1 w1] r]|] eqn:MW; [|discriminate]. intros H; inversion H; subst. apply match_word_inv in MW as [CL E]. apply classify_ok in CL as (_ & _ & LX & _).
  destruct (word_start w) as (c & r1 & -> & _); [exists t; exact LX|]. pose proof (skip_le s Between) as L. rewrite SK, E, slength_app in L. cbn in *. lia.
Qed.

(** ** the tables *)
Lemma domain_stop : check_stop domain_table domain_rank = true.
Proof. vm_compute. reflexivity. Qed.
Lemma problem_stop : check_stop problem_table problem_rank = true.
Proof. vm_compute. reflexivity. Qed.
Lemma plan_stop : check_stop plan_table plan_rank = true.
Proof. vm_compute. reflexivity. Qed.

Lemma text_stops {V St} (leaf : string -> V) (reduce : nt -> list el -> list V -> St -> St * res V) start tbl s st : parser start tbl ->
  exists r, returns tbl lex_text leaf reduce (begin (s, []) st) r.
Proof.
  destruct 1.
  - destruct domain_checks as (_ & _ & _ & C4). exact (begin_stops lex_text leaf reduce _ _ _ _ _ _ _ C4 domain_stop (fun i => String.length (fst i)) text_size _ _).
  - destruct problem_checks as (_ & _ & _ & C4). exact (begin_stops lex_text leaf reduce _ _ _ _ _ _ _ C4 problem_stop (fun i => String.length (fst i)) text_size _ _).
  - destruct plan_checks as (_ & _ & _ & C4). exact (begin_stops lex_text leaf reduce _ _ _ _ _ _ _ C4 plan_stop (fun i => String.length (fst i)) text_size _ _).
Qed.
