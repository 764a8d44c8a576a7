(** Numbers through lexer and parser. *)
From Coq Require Import String Ascii List Bool Arith Lia ZArith NArith QArith DecimalString Decimal.
From Verif Require Import Py Names Reqs Logic Validation Core Lexer TypedList UpdateTags Parser.
From Verif Require Import Spec Spec_Parse Spec_Numbers.
From Verif Require Import Py_facts Logic_facts Ops_facts Built_facts Names_facts CoreEq_facts
  Inst_facts Parse_facts GD_facts Lex_facts.
Import ListNotations.
Open Scope string_scope.
Open Scope list_scope.

(** ** int() and positional notation *)
Definition hpos (acc : positive) (s : string) := horner (Zpos acc) s.

Ltac eval_digit :=
  match goal with |- context [digit ?c] =>
    let d := eval vm_compute in (digit c) in change (digit c) with d; cbv iota beta end.
Lemma uint_acc s : forall u acc, NilEmpty.uint_of_string s = Some u ->
  horner (Zpos acc) s = Some (Zpos (Pos.of_uint_acc u acc)).
Proof.
  induction s as [|c s IH]; intros u acc H; [now injection H as <-|].
  cbn [NilEmpty.uint_of_string] in H.
  destruct (NilEmpty.uint_of_string s) as [u'|]; [|discriminate].
  destruct c as [[] [] [] [] [] [] [] []]; try discriminate; injection H as <-;
    cbn [horner]; eval_digit; cbn [Pos.of_uint_acc]; rewrite <- (IH u' _ eq_refl); f_equal; lia.
Qed.
Lemma uint_horner s : forall u, NilEmpty.uint_of_string s = Some u ->
  horner 0 s = Some (Z.of_N (N.of_uint u)).
Proof.
  induction s as [|c s IH]; intros u H; [now injection H as <-|].
  cbn [NilEmpty.uint_of_string] in H.
  destruct (NilEmpty.uint_of_string s) as [u'|] eqn:E; [|discriminate].
  destruct c as [[] [] [] [] [] [] [] []]; try discriminate; injection H as <-;
    cbn [horner]; eval_digit; try exact (IH u' eq_refl); exact (uint_acc _ _ _ E).
Qed.
Lemma uint_none s : NilEmpty.uint_of_string s = None -> forall acc, horner acc s = None.
Proof.
  induction s as [|c s IH]; intros H acc; [discriminate|].
  cbn [NilEmpty.uint_of_string] in H.
  destruct (NilEmpty.uint_of_string s) as [u'|] eqn:E.
  - destruct c as [[] [] [] [] [] [] [] []]; try discriminate; reflexivity.
  - cbn [horner]. destruct (digit c); auto.
Qed.
Lemma digits_horner s n : Parser.digits s = Ok n <-> horner 0 s = Some (Z.of_N n).
Proof.
  unfold Parser.digits. destruct (NilEmpty.uint_of_string s) as [u|] eqn:E.
  - rewrite (uint_horner _ _ E). split; [now intros [= ->]|]. intros [= H].
    apply N2Z.inj in H. now subst.
  - rewrite (uint_none _ E). split; discriminate.
Qed.

Lemma horner_app a : forall acc b,
  horner acc (a +++ b) = match horner acc a with Some z => horner z b | None => None end.
Proof. induction a as [|c a IH]; intros acc b; simpl; auto. destruct (digit c); auto. Qed.
Lemma horner_shift s : forall acc z,
  horner acc s = Some z <->
  exists w, horner 0 s = Some w /\ z = (acc * 10 ^ Z.of_nat (String.length s) + w)%Z.
Proof.
  assert (H : forall s acc, horner acc s = match horner 0 s with
      Some w => Some (acc * 10 ^ Z.of_nat (String.length s) + w)%Z | None => None end).
  { clear. induction s as [|c s IH]; intros acc; [cbn; f_equal; lia|].
    cbn [horner String.length]. destruct (digit c) as [d|]; auto.
    rewrite (IH (10 * acc + d)%Z), (IH (10 * 0 + d)%Z). destruct (horner 0 s); auto. f_equal.
    rewrite Nat2Z.inj_succ, Z.pow_succ_r by lia. ring. }
  intros acc z. rewrite H. destruct (horner 0 s) as [w|].
  - split; [intros [= <-]; eauto|intros (w' & [= <-] & ->); auto].
  - split; [discriminate|intros (w' & X & _); discriminate].
Qed.
Lemma horner_nonneg s : forall acc z, (0 <= acc)%Z -> horner acc s = Some z -> (0 <= z)%Z.
Proof.
  induction s as [|c s IH]; intros acc z A; cbn [horner]; [intros [= <-]; auto|].
  unfold digit. destruct (_ && _) eqn:E; [|discriminate]. apply IH.
  apply andb_true_iff in E as [E _]. apply Z.leb_le in E. lia.
Qed.
Lemma horner_digit c s acc z : horner acc (String c s) = Some z -> is_digit c = true.
Proof. cbn [horner]. destruct c as [[] [] [] [] [] [] [] []]; cbn; try discriminate; reflexivity. Qed.

(** ** split_dot *)
Lemma split_dot_none s z acc : horner acc s = Some z -> split_dot s = (s, None).
Proof.
  revert acc. induction s as [|c s IH]; intros acc H; auto.
  pose proof (horner_digit _ _ _ _ H) as D. cbn [horner] in H. cbn [split_dot].
  replace (chr 46 c) with false.
  - destruct (digit c); [|discriminate]. now rewrite (IH _ H).
  - destruct c as [[] [] [] [] [] [] [] []]; cbn in D |- *; congruence.
Qed.
Lemma split_dot_dot i f z acc : horner acc i = Some z -> split_dot (i +++ "." +++ f) = (i, Some f).
Proof.
  revert acc. induction i as [|c s IH]; intros acc H; auto.
  pose proof (horner_digit _ _ _ _ H) as D. cbn [horner] in H. cbn [split_dot append].
  replace (chr 46 c) with false.
  - destruct (digit c); [|discriminate]. cbn in IH. now rewrite (IH _ H).
  - destruct c as [[] [] [] [] [] [] [] []]; cbn in D |- *; congruence.
Qed.
Lemma split_dot_inv s i f : split_dot s = (i, Some f) -> s = i +++ "." +++ f.
Proof.
  revert i f. induction s as [|c s IH]; intros i f; cbn [split_dot]; [discriminate|].
  destruct (chr 46 c) eqn:C.
  - intros [= <- <-]. apply N.eqb_eq in C.
    destruct c as [[] [] [] [] [] [] [] []]; cbn in C; try discriminate; reflexivity.
  - destruct (split_dot s) as [a b]. intros [= <- ->]. cbn. f_equal. now apply IH.
Qed.
Lemma split_dot_inv_none s i : split_dot s = (i, None) -> i = s.
Proof.
  revert i. induction s as [|c s IH]; intros i; cbn [split_dot]; [now intros [= <-]|].
  destruct (chr 46 c); [discriminate|]. destruct (split_dot s) as [a b]. intros [= <- ->].
  f_equal. now apply IH.
Qed.

Lemma dec_value z w e :
  (Qmake (z * 10 ^ Z.of_nat e + w) (Z.to_pos (10 ^ Z.of_nat e))
   == inject_Z z + inject_Z w / inject_Z (10 ^ Z.of_nat e))%Q.
Proof.
  assert (P : (0 < 10 ^ Z.of_nat e)%Z) by (apply Z.pow_pos_nonneg; lia).
  destruct (10 ^ Z.of_nat e)%Z as [|p|p] eqn:E; try lia.
  unfold Qeq, Qplus, Qdiv, Qmult, Qinv, inject_Z. cbn. lia.
Qed.

Lemma numeral_literal s q : numeral s q ->
  exists v r, num_literal s = Ok v /\ num_value v = Some r /\ (r == q)%Q.
Proof.
  unfold num_literal. intros [(z & N & H & Q)|(i & f & z & w & -> & Ni & Nf & Hi & Hf & Q)].
  - rewrite (split_dot_none _ _ _ H).
    pose proof (horner_nonneg _ _ _ (Z.le_refl 0) H) as P.
    assert (D : Parser.digits s = Ok (Z.to_N z)) by (apply digits_horner; now rewrite Z2N.id).
    rewrite D. cbn. do 2 eexists. split; [reflexivity|]. split; [reflexivity|].
    rewrite Z2N.id by auto. now symmetry.
  - rewrite (split_dot_dot _ _ _ _ Hi).
    assert (H : horner 0 (i +++ f) = Some (z * 10 ^ Z.of_nat (String.length f) + w)%Z).
    { rewrite horner_app, Hi. apply horner_shift. eauto. }
    pose proof (horner_nonneg _ _ _ (Z.le_refl 0) H) as P.
    assert (D : Parser.digits (i +++ f) = Ok (Z.to_N (z * 10 ^ Z.of_nat (String.length f) + w)))
      by (apply digits_horner; now rewrite Z2N.id).
    rewrite D. cbn [bind]. do 2 eexists. split; [reflexivity|].
    split; [cbn [num_value]; reflexivity|]. rewrite Z2N.id by auto. rewrite Q. apply dec_value.
Qed.

Lemma literal_kind s :
  (forall z, s <> "" -> horner 0 s = Some z -> num_literal s = Ok (NInt z))
  /\ (forall i f z w, s = i +++ "." +++ f -> i <> "" -> f <> "" -> horner 0 i = Some z -> horner 0 f = Some w ->
        exists v, num_literal s = Ok (NDec v (String.length f))).
Proof.
  unfold num_literal. split.
  - intros z N H. rewrite (split_dot_none _ _ _ H).
    pose proof (horner_nonneg _ _ _ (Z.le_refl 0) H) as P.
    assert (D : Parser.digits s = Ok (Z.to_N z)) by (apply digits_horner; now rewrite Z2N.id).
    rewrite D. cbn. now rewrite Z2N.id.
  - intros i f z w -> Ni Nf Hi Hf. rewrite (split_dot_dot _ _ _ _ Hi).
    assert (H : horner 0 (i +++ f) = Some (z * 10 ^ Z.of_nat (String.length f) + w)%Z).
    { rewrite horner_app, Hi. apply horner_shift. eauto. }
    pose proof (horner_nonneg _ _ _ (Z.le_refl 0) H) as P.
    assert (D : Parser.digits (i +++ f) = Ok (Z.to_N (z * 10 ^ Z.of_nat (String.length f) + w)))
      by (apply digits_horner; now rewrite Z2N.id).
    rewrite D. cbn [bind]. eauto.
Qed.

(** ** the tokens of numbers begin and end with a digit *)
Definition num_tok (s : string) : Prop :=
  (exists c r, s = String c r /\ is_digit c = true) /\ (exists r c, s = snoc r c /\ is_digit c = true).
Definition tok_ok (t : token) : Prop := match t with TNum s => dotted s | _ => True end.
Definition st_ok (q : lstate) : Prop := match q with QNum s | QDot s => dotted s | _ => True end.

Lemma digit_Some c : is_digit c = true -> exists z, digit c = Some z.
Proof. destruct c as [[] [] [] [] [] [] [] []]; vm_compute; try discriminate; eauto. Qed.
Lemma horner_snoc s c acc z : horner acc s = Some z -> is_digit c = true -> exists w, horner acc (snoc s c) = Some w.
Proof.
  intros H D. unfold snoc, str1. rewrite horner_app, H. cbn. destruct (digit_Some c D) as (d & ->). eauto.
Qed.
Lemma dotted_one c : is_digit c = true -> dotted (str1 c).
Proof. intros D. destruct (digit_Some c D) as (d & E). apply (D_digits _ (10 * 0 + d)); [discriminate|]. cbn. now rewrite E. Qed.
Lemma snoc_not_nil s c : snoc s c <> "".
Proof. destruct s; discriminate. Qed.
Lemma dotted_snoc s c : dotted s -> is_digit c = true -> dotted (snoc s c).
Proof.
  intros [t z N H|t f z T N H] C; destruct (horner_snoc _ _ _ _ H C) as (w & W).
  - apply (D_digits _ w); auto. apply snoc_not_nil.
  - replace (snoc (t +++ "." +++ f) c) with (t +++ "." +++ snoc f c) by (unfold snoc; now rewrite !append_assoc).
    apply (D_dot t _ w); auto. apply snoc_not_nil.
Qed.
Lemma dotted_dot s c : dotted s -> is_digit c = true -> dotted (s +++ "." +++ str1 c).
Proof. intros T C. destruct (digit_Some c C) as (d & E). apply (D_dot s _ (10 * 0 + d)); [auto|discriminate|]. cbn. now rewrite E. Qed.
Lemma snoc_last s : s <> "" -> exists r c, s = snoc r c.
Proof.
  induction s as [|c s IH]; [congruence|]. intros _. destruct s as [|d s]; [exists "", c; reflexivity|].
  destruct IH as (r & e & ->); [discriminate|]. exists (String c r), e. reflexivity.
Qed.
Lemma horner_last s c acc z : horner acc (snoc s c) = Some z -> is_digit c = true.
Proof.
  unfold snoc, str1. rewrite horner_app. destruct (horner acc s); [|discriminate]. apply horner_digit.
Qed.
Lemma dotted_tok s : dotted s -> num_tok s.
Proof.
  induction 1 as [s z N H|s f z T [(c & r & -> & C) _] N H].
  - split.
    + destruct s as [|c s]; [congruence|]. exists c, s. split; auto. eapply horner_digit; eauto.
    + destruct (snoc_last s N) as (r & c & ->). exists r, c. split; auto. eapply horner_last; eauto.
  - split; [exists c, (r +++ "." +++ f); auto|]. destruct (snoc_last f N) as (r' & c' & ->).
    exists (String c r +++ "." +++ r'), c'. split; [unfold snoc; now rewrite !append_assoc|]. eapply horner_last; eauto.
Qed.
Lemma numeral_dotted s q : numeral s q -> dotted s.
Proof.
  intros [(z & N & H & _)|(i & f & z & w & -> & Ni & Nf & Hi & Hf & _)].
  - now apply (D_digits _ z).
  - apply (D_dot _ _ w); auto. now apply (D_digits _ z).
Qed.
Lemma start_ok c : st_ok (fst (start c)) /\ Forall tok_ok (snd (start c)).
Proof.
  unfold start. repeat match goal with |- context [if ?b then _ else _] => destruct b eqn:? end;
    cbn; repeat constructor.
  now apply dotted_one.
Qed.
Lemma flush_ok q : st_ok q -> Forall tok_ok (flush q).
Proof.
  intros H. destruct q; cbn [flush]; repeat constructor; auto; try apply H.
  unfold kw_token. now destruct (memb String.eqb s colon_keywords).
Qed.
Lemma restart_ok q c : st_ok q -> st_ok (fst (restart q c)) /\ Forall tok_ok (snd (restart q c)).
Proof.
  intros H. unfold restart. pose proof (start_ok c) as [S1 S2]. destruct (start c) as [q' ts].
  split; auto. apply Forall_app. split; auto. now apply flush_ok.
Qed.
Lemma lstep_ok q c : st_ok q -> st_ok (fst (lstep q c)) /\ Forall tok_ok (snd (lstep q c)).
Proof.
  intros H. destruct q; cbn [lstep].
  - apply start_ok.
  - destruct (is_name_char c); [split; constructor|now apply restart_ok].
  - destruct (is_digit c) eqn:D; [split; [now apply dotted_snoc|constructor]|].
    destruct (chr 46 c); [split; [exact H|constructor]|now apply restart_ok].
  - destruct (is_digit c) eqn:D; [split; [now apply dotted_dot|constructor]|now apply restart_ok].
  - destruct (is_name_char c); [split; constructor|now apply restart_ok].
  - destruct (chr 61 c); [repeat constructor|now apply restart_ok].
  - destruct (chr 61 c); [repeat constructor|now apply restart_ok].
  - destruct (chr 10 c); repeat constructor.
Qed.
Lemma lex_tok_ok s : forall q, st_ok q -> Forall tok_ok (lex_from q s).
Proof.
  induction s as [|c r IH]; intros q H; cbn [lex_from]; [now apply flush_ok|].
  pose proof (lstep_ok q c H) as [A B]. destruct (lstep q c) as [q' ts].
  apply Forall_app. split; [exact B|exact (IH _ A)].
Qed.

(** the atoms of a tree *)
Inductive atom_in (t : token) : sexp -> Prop :=
| AI_atom : atom_in t (SAtom t)
| AI_list x l : In x l -> atom_in t x -> atom_in t (SList l).
Lemma number_in_atom s x : number_in s x <-> atom_in (TNum s) x.
Proof.
  split; (induction 1; [constructor|econstructor; eauto]).
Qed.
Definition atoms_ok (P : token -> Prop) (x : sexp) : Prop := forall t, atom_in t x -> P t.
Lemma read_from_atoms (P : token -> Prop) ts : forall stack out l,
  Forall P ts -> Forall (Forall (atoms_ok P)) stack -> Forall (atoms_ok P) out ->
  read_from stack out ts = Some l -> Forall (atoms_ok P) l.
Proof.
  assert (A : forall t, P t -> atoms_ok P (SAtom t)) by (intros t H u U; inversion U; now subst).
  assert (L : forall l, Forall (atoms_ok P) l -> atoms_ok P (SList l)).
  { intros l H u U. inversion U; subst. rewrite Forall_forall in H. eapply H; eauto. }
  induction ts as [|t ts IH]; intros stack out l F S O; cbn [read_from].
  - destruct stack; [|discriminate]. intros [= <-]. now apply Forall_rev.
  - inversion F; subst.
    destruct t; try (apply IH; auto; constructor; auto; fail).
    destruct stack as [|up stack']; [discriminate|]. inversion S; subst.
    apply IH; auto. constructor; auto. apply L. now apply Forall_rev.
Qed.
Lemma read_text_dotted s l x n : read_text s = Some l -> In x l -> number_in n x -> dotted n.
Proof.
  intros H I N. apply number_in_atom in N.
  assert (F : Forall (atoms_ok tok_ok) l).
  { eapply read_from_atoms; [| | |exact H]; [apply lex_tok_ok; exact Logic.I|constructor|constructor]. }
  rewrite Forall_forall in F. exact (F x I _ N).
Qed.
Lemma read_text_tok s l x n : read_text s = Some l -> In x l -> number_in n x -> num_tok n.
Proof. intros H I N. eapply dotted_tok, read_text_dotted; eauto. Qed.

Lemma literal_numeral s v : num_tok s -> num_literal s = Ok v ->
  exists q r, numeral s q /\ num_value v = Some r /\ (r == q)%Q.
Proof.
  intros [(c & r & -> & D) (r' & c' & E & D')] H. unfold num_literal in H.
  destruct (split_dot (String c r)) as [i [f|]] eqn:S.
  - apply split_dot_inv in S. apply bind_Ok in H as (n & N & H). injection H as <-.
    apply digits_horner in N. rewrite horner_app in N.
    destruct (horner 0 i) as [z|] eqn:Hi; [|discriminate].
    apply horner_shift in N as (w & Hf & Ez).
    exists (inject_Z z + inject_Z w / inject_Z (10 ^ Z.of_nat (String.length f)))%Q. eexists.
    split; [right; exists i, f, z, w|split; [cbn [num_value]; reflexivity|]].
    + split; auto. split; [|split; [|split; [|split]]]; auto; try reflexivity.
      * intros ->. injection S as -> _. discriminate.
      * intros ->. rewrite S in E.
        assert (X : forall a b, a +++ "." = snoc b c' -> c' = "."%char).
        { clear. induction a as [|x a IH]; intros [|y b] H; unfold snoc, str1 in *; cbn in H.
          - now inversion H.
          - destruct b; discriminate H.
          - destruct a; discriminate H.
          - inversion H. eapply IH. eassumption. }
        cbn in E. apply X in E. subst c'. discriminate.
    + rewrite Ez. apply dec_value.
  - apply bind_Ok in H as (n & N & H). injection H as <-. apply digits_horner in N.
    exists (inject_Z (Z.of_N n)), (inject_Z (Z.of_N n)).
    split; [|split; reflexivity]. left. exists (Z.of_N n). split; [discriminate|]. split; auto. reflexivity.
Qed.
Lemma numeral_unique s p q : numeral s p -> numeral s q -> (p == q)%Q.
Proof.
  intros P Q. apply numeral_literal in P as (v & r & L & V & E).
  apply numeral_literal in Q as (v' & r' & L' & V' & E'). congruence || (rewrite <- E, <- E').
  assert (v = v') by congruence. subst. rewrite V in V'. injection V' as <-. reflexivity.
Qed.

(** the lexer reads a numeral as one token *)
Lemma run_digits s : forall acc z p, horner acc s = Some z -> run (QNum p) s = (QNum (p +++ s), []).
Proof.
  induction s as [|c s IH]; intros acc z p H; cbn [run]; [now rewrite append_nil_r|].
  pose proof (horner_digit _ _ _ _ H) as D. cbn [horner] in H. destruct (digit c); [|discriminate].
  cbn [lstep]. rewrite D. rewrite (IH _ _ (snoc p c) H). unfold snoc, str1. now rewrite append_assoc.
Qed.
Lemma start_digit c : is_digit c = true -> start c = (QNum (str1 c), []).
Proof. destruct c as [[] [] [] [] [] [] [] []]; cbn; try discriminate; reflexivity. Qed.
Lemma run_int s acc z : s <> "" -> horner acc s = Some z -> run QStart s = (QNum s, []).
Proof.
  destruct s as [|c s]; [congruence|]. intros _ H. pose proof (horner_digit _ _ _ _ H) as D.
  cbn [horner] in H. destruct (digit c); [|discriminate].
  cbn [run lstep]. rewrite start_digit by auto. now rewrite (run_digits _ _ _ _ H).
Qed.
Lemma run_dotted s : dotted s -> run QStart s = (QNum s, []).
Proof.
  induction 1 as [s z N H|s f z T IH N H]; [now apply (run_int _ _ _ N H)|].
  rewrite run_app, IH. cbn [fst snd app].
  destruct f as [|c f]; [congruence|]. pose proof (horner_digit _ _ _ _ H) as D.
  cbn [horner] in H. destruct (digit c); [|discriminate].
  cbn [append run lstep chr]. replace (is_digit "."%char) with false by reflexivity.
  replace (chr 46 "."%char) with true by reflexivity. cbn [run lstep]. rewrite D.
  rewrite (run_digits _ _ _ _ H). cbn [fst snd flush app]. unfold str1. rewrite !append_assoc. reflexivity.
Qed.
Lemma lex_dotted s : dotted s -> lex s = [TNum s].
Proof. intros H. unfold lex. rewrite lex_from_run. now rewrite (run_dotted _ H). Qed.
Lemma lex_numeral s q : numeral s q -> lex s = [TNum s].
Proof. intros H. eapply lex_dotted, numeral_dotted, H. Qed.

(** ** numbers of formulas *)
Lemma list_eqb_In {A} (eqb : A -> A -> bool) l m x : list_eqb eqb l m = true -> In x l ->
  exists y, In y m /\ eqb x y = true.
Proof.
  revert m. induction l as [|a l IH]; intros [|b m] H I; try discriminate; [destruct I|].
  cbn [list_eqb] in H. apply andb_true_iff in H as [H1 H2]. destruct I as [->|I].
  - exists b. simpl. auto.
  - destruct (IH m H2 I) as (y & Y & E). exists y. simpl. auto.
Qed.
Lemma within_num_eqb v f : within (FNumVal v) f -> forall g, form_eqb f g = true ->
  exists w, within (FNumVal w) g /\ num_eqb v w = true.
Proof.
  remember (FNumVal v) as h. induction 1 as [|k ops f I W IH|k ops f I W IH|f W IH|q vs c W IH
    |c e W IH|c e W IH|vs e W IH]; subst; intros g E; destruct g; try discriminate; cbn in E.
  - exists v0. split; [constructor|auto].
  - apply andb_true_iff in E as [_ E]. destruct (list_eqb_In _ _ _ _ E I) as (y & Y & Ey).
    destruct (IH y Ey) as (w & Ww & Ew). exists w. split; auto. eapply W_binfun; eauto.
  - apply andb_true_iff in E as [_ E]. destruct (list_eqb_In _ _ _ _ E I) as (y & Y & Ey).
    destruct (IH y Ey) as (w & Ww & Ew). exists w. split; auto. eapply W_bin; eauto.
  - destruct (IH _ E) as (w & Ww & Ew). exists w. split; auto. now constructor.
  - apply andb_true_iff in E as [_ E].
    destruct (IH _ E) as (w & Ww & Ew). exists w. split; auto. now constructor.
  - apply andb_true_iff in E as [E _].
    destruct (IH _ E) as (w & Ww & Ew). exists w. split; auto. now apply W_when_c.
  - apply andb_true_iff in E as [_ E].
    destruct (IH _ E) as (w & Ww & Ew). exists w. split; auto. now apply W_when_e.
  - apply andb_true_iff in E as [_ E].
    destruct (IH _ E) as (w & Ww & Ew). exists w. split; auto. now constructor.
Qed.
Lemma within_raw c v ops : within (FNumVal v) (raw_node c ops) <->
  exists f, In f ops /\ within (FNumVal v) f.
Proof.
  destruct c; cbn [raw_node]; split.
  - inversion 1; subst; eauto.
  - intros (f & I & W). eapply W_bin; eauto.
  - inversion 1; subst; eauto.
  - intros (f & I & W). eapply W_binfun; eauto.
Qed.
Lemma within_mk_op_inv c ops v : within (FNumVal v) (mk_op c ops) ->
  exists f, In f ops /\ within (FNumVal v) f.
Proof.
  intros H. assert (P : (fun f => within (FNumVal v) f -> exists g, In g ops /\ within (FNumVal v) g)
    (mk_op c ops)).
  { apply mk_op_P.
    - intros f l O Hf. apply ops_if_raw in O. subst. apply Forall_forall. intros g Hg Ag.
      apply Hf. apply within_raw. eauto.
    - intros l F A. apply within_raw in A as (f & Hf & A). rewrite Forall_forall in F. eauto.
    - apply Forall_forall. eauto. }
  auto.
Qed.
Lemma within_leaves c v f : within (FNumVal v) f ->
  exists g, In g (leaves c f) /\ within (FNumVal v) g.
Proof.
  intros H. remember (FNumVal v) as h. induction H as [|k ops f I W IH|k ops f I W IH| | | | |]; subst;
    try (eexists; split; [destruct c; simpl; left; reflexivity|]; solve [econstructor; eauto]).
  - rewrite leaves_ops_if. destruct (ops_if c (FBinFun k ops)) as [ops'|] eqn:O.
    + apply ops_if_raw in O. destruct c; inversion O; subst. destruct IH as (g & G & Wg).
      exists g. split; auto. apply in_flat_map. eauto.
    + eexists. split; [left; reflexivity|]. eapply W_binfun; eauto.
  - rewrite leaves_ops_if. destruct (ops_if c (FBin k ops)) as [ops'|] eqn:O.
    + apply ops_if_raw in O. destruct c; inversion O; subst. destruct IH as (g & G & Wg).
      exists g. split; auto. apply in_flat_map. eauto.
    + eexists. split; [left; reflexivity|]. eapply W_bin; eauto.
Qed.
Definition holds_num (v : num) (l : list form) : Prop :=
  exists f w, In f l /\ within (FNumVal w) f /\ num_eqb v w = true.
Lemma holds_num_dedup v l : holds_num v l -> holds_num v (dedup form_eqb l).
Proof.
  intros (f & w & I & W & E).
  assert (M : memb form_eqb f (dedup form_eqb l) = true).
  { rewrite memb_dedup by apply form_eqb_equiv. apply memb_In. exists f. split; auto.
    apply (eqv_refl _ form_eqb_equiv). }
  apply memb_In in M as (g & G & Eg). destruct (within_num_eqb _ _ W _ Eg) as (w' & W' & E').
  exists g, w'. repeat split; auto. eapply (eqv_trans _ num_eqb_equiv); eauto.
Qed.
Lemma within_mk_op c ops v : holds_num v ops ->
  exists w, within (FNumVal w) (mk_op c ops) /\ num_eqb v w = true.
Proof.
  intros H.
  assert (R : forall l, holds_num v l -> exists w, within (FNumVal w) (raw_node c l) /\ num_eqb v w = true).
  { intros l (f & w & I & W & E). exists w. split; auto. apply within_raw. eauto. }
  unfold mk_op. destruct (metaclass c) as [idem|]; [|now apply R].
  assert (S : holds_num v (simplify_operands c idem ops)).
  { rewrite simplify_spec. assert (O : holds_num v (if idem then dedup form_eqb ops else ops))
      by (destruct idem; auto using holds_num_dedup).
    destruct (if idem then _ else _) as [|x [|y l]]; auto.
    apply holds_num_dedup. destruct O as (f & w & I & W & E).
    destruct (within_leaves c _ _ W) as (g & G & Wg). exists g, w. repeat split; auto.
    apply in_flat_map. eauto. }
  destruct (simplify_operands c idem ops) as [|x [|y l]]; try now apply R.
  destruct idem; [|now apply R]. destruct S as (f & w & [->|[]] & W & E). eauto.
Qed.

Definition num_spec (x : sexp) (f : form) : Prop :=
  (forall s, number_in s x -> exists v w, num_literal s = Ok v /\ within (FNumVal w) f
                                          /\ num_eqb v w = true)
  /\ (forall v, within (FNumVal v) f -> exists s, number_in s x /\ num_literal s = Ok v).
Definition no_number (x : sexp) : Prop := forall s, ~ number_in s x.

Lemma ns_leaf x f : no_number x -> (forall v, ~ within (FNumVal v) f) -> num_spec x f.
Proof. intros N W. split; [intros s H; destruct (N s H)|intros v H; destruct (W v H)]. Qed.
Lemma number_in_list s l : number_in s (SList l) <-> exists x, In x l /\ number_in s x.
Proof. split; [inversion 1; subst; eauto|intros (x & I & H); econstructor; eauto]. Qed.
(** an operator applied to operands, after atoms that are not numbers *)
Lemma ns_op pre l k ops : Forall no_number pre -> Forall2 num_spec l ops ->
  num_spec (SList (pre ++ l)) (mk_op k ops).
Proof.
  intros P F. split.
  - intros s H. apply number_in_list in H as (x & I & H). apply in_app_or in I as [I|I].
    + rewrite Forall_forall in P. destruct (P x I s H).
    + assert (X : exists v, num_literal s = Ok v /\ holds_num v ops).
      { clear - F I H. induction F as [|y f l ops [S1 _] F IH]; [destruct I|].
        destruct I as [->|I].
        - destruct (S1 s H) as (v & w & L & W & E). exists v. split; auto. exists f, w. simpl. auto.
        - destruct (IH I) as (v & L & (g & w & G & W & E)). exists v. split; auto.
          exists g, w. simpl. auto. }
      destruct X as (v & L & X). destruct (within_mk_op k _ _ X) as (w & W & E). eauto.
  - intros v W. apply within_mk_op_inv in W as (f & I & W).
    assert (X : exists s x, In x l /\ number_in s x /\ num_literal s = Ok v).
    { clear - F I W. induction F as [|y g l ops [_ S2] F IH]; [destruct I|].
      destruct I as [->|I].
      - destruct (S2 v W) as (s & N & L). exists s, y. simpl. auto.
      - destruct (IH I) as (s & x & X & N & L). exists s, x. simpl. auto. }
    destruct X as (s & x & X & N & L). exists s. split; auto. apply number_in_list.
    exists x. split; auto. apply in_or_app. auto.
Qed.
(** one part that keeps its numbers, the others without *)
Lemma ns_one pre x post f g :
  Forall no_number pre -> Forall no_number post -> num_spec x f ->
  (forall v, within (FNumVal v) g <-> within (FNumVal v) f) ->
  num_spec (SList (pre ++ x :: post)) g.
Proof.
  intros P Q [S1 S2] E. split.
  - intros s H. apply number_in_list in H as (y & I & H). apply in_app_or in I as [I|[<-|I]].
    + rewrite Forall_forall in P. destruct (P y I s H).
    + destruct (S1 s H) as (v & w & L & W & X). exists v, w. split; auto. split; auto. now apply E.
    + rewrite Forall_forall in Q. destruct (Q y I s H).
  - intros v W. apply E in W. destruct (S2 v W) as (s & N & L). exists s. split; auto.
    apply number_in_list. exists x. split; auto. apply in_or_app. simpl. auto.
Qed.
Lemma ns_mapR {f : sexp -> res form} l fs :
  mapR f l = Ok fs -> Forall (fun x => forall g, f x = Ok g -> num_spec x g) l -> Forall2 num_spec l fs.
Proof.
  intros M F. apply mapR_Ok in M. induction M; constructor; inversion F; subst; auto.
Qed.

Lemma no_number_atom t : (forall s, t <> TNum s) -> no_number (SAtom t).
Proof. intros H s N. inversion N; subst. now destruct (H s). Qed.
Lemma no_number_list l : Forall no_number l -> no_number (SList l).
Proof. intros F s N. apply number_in_list in N as (x & I & N). rewrite Forall_forall in F. exact (F x I s N). Qed.
Ltac atoms := repeat first [apply Forall_nil | apply Forall_cons; [apply no_number_atom; discriminate|]].
Lemma terms_no_number_n n : forall l ts, length l <= n -> terms l = Some ts -> Forall no_number l.
Proof.
  induction n as [|n IH]; intros [|x l] ts L H; cbn in L; try (now constructor); try lia.
  destruct x as [[]|]; try discriminate.
  - destruct l as [|[[]|] l]; try discriminate. cbn in H.
    destruct (terms l) eqn:T; [|discriminate].
    atoms. eapply IH; [|exact T]. cbn in L. lia.
  - cbn in H. destruct (terms l) eqn:T; [|discriminate].
    atoms. eapply IH; [|exact T]. lia.
Qed.
Lemma terms_no_number l ts : terms l = Some ts -> Forall no_number l.
Proof. apply (terms_no_number_n (length l)). lia. Qed.

Section Num.
  Variable c : gctx.
  Hypothesis HV : forall l tl, g_vars c l = Ok tl -> Forall no_number l.

  Lemma of_opt_Ok' {A} (o : option A) a : of_opt o = Ok a -> o = Some a.
  Proof. destruct o; cbn; [now intros [= ->]|discriminate]. Qed.
  Lemma atomic_pred_ns n args f : atomic_pred c n args = Ok f ->
    num_spec (SList (SAtom (TWord n) :: args)) f.
  Proof.
    unfold atomic_pred. intros H. apply bind_Ok in H as (ps & T & H). apply of_opt_Ok' in T.
    apply bind_Ok in H as (rs & _ & H). apply bind_Ok in H as (ts & _ & H).
    apply ns_leaf.
    - apply no_number_list. atoms. eapply terms_no_number; eauto.
    - apply mk_pred_iff in H as [-> _]. intros v W. inversion W.
  Qed.
  Lemma atomic_eq_ns o args f : atomic_eq c args = Ok f ->
    num_spec (SList (SAtom (TOp o) :: args)) f.
  Proof.
    unfold atomic_eq. destruct (terms args) as [[|a [|b [|]]]|] eqn:T; try discriminate. intros H.
    apply bind_Ok in H as (ra & RA & H). apply bind_Ok in H as (rb & RB & H).
    apply bind_Ok in H as ([] & _ & H). apply bind_Ok in H as (l & L & H).
    apply bind_Ok in H as (r & R & H). apply ns_leaf.
    - apply no_number_list. atoms. eapply terms_no_number; eauto.
    - apply mk_eq_iff in H as [-> _]. intros v W. inversion W.
  Qed.
  Lemma atomic_formula_term_ns s f : atomic_formula_term c s = Ok f -> num_spec s f.
  Proof.
    destruct s as [|[|[[]|] l]]; simpl; try discriminate.
    - apply atomic_pred_ns.
    - destruct (String.eqb s "="); [apply atomic_eq_ns|discriminate].
  Qed.
  Lemma f_head_ns s f : f_head c s = Ok f -> num_spec s f.
  Proof.
    assert (N : forall n ts f, mk_numfun n ts = Ok f -> forall v, ~ within (FNumVal v) f).
    { intros n ts g H. unfold mk_numfun in H. apply bind_Ok in H as (n' & _ & H). inversion H; subst.
      intros v W. inversion W. }
    destruct s as [[]|[|[[]|] l]]; simpl; try discriminate; intros H.
    - apply ns_leaf; [apply no_number_atom; discriminate|eauto].
    - apply bind_Ok in H as (ps & T & H). apply of_opt_Ok' in T.
      apply bind_Ok in H as (rs & R & H). apply bind_Ok in H as (ts & _ & H).
      apply ns_leaf; [|eauto]. apply no_number_list. atoms. eapply terms_no_number; eauto.
  Qed.
  Lemma f_exp_ns s : forall f, f_exp c s = Ok f -> num_spec s f.
  Proof.
    induction s as [t|l IH] using sexp_ind'; intros f.
    - destruct t; try (apply f_head_ns). simpl. intros H. apply bind_Ok in H as (v & L & H).
      inversion H; subst. split.
      + intros s' N. inversion N; subst. exists v, v. split; auto. split; [constructor|].
        apply (eqv_refl _ num_eqb_equiv).
      + intros w W. inversion W; subst. exists s. split; auto. constructor.
    - destruct l as [|[[]|] args]; try (apply f_head_ns). cbn [f_exp].
      destruct (arith_op s (length args)); [|discriminate]. intros H.
      apply bind_Ok in H as (ops & M & H). inversion H; subst. inversion IH; subst.
      apply (ns_op [SAtom (TOp s)]); [atoms|]. eapply ns_mapR; eauto.
  Qed.
  Lemma gd_ns s : forall f, gd c s = Ok f -> num_spec s f.
  Proof.
    induction s as [t|l IH] using sexp_ind'; intros f; [discriminate|].
    destruct l as [|[[]|] args]; try discriminate; inversion IH as [|? ? _ IHa]; subst; clear IH.
    - cbn [gd]. destruct (String.eqb s "or").
      { intros H. apply bind_Ok in H as (ops & M & H). apply bind_Ok in H as ([] & _ & H).
        inversion H; subst. apply (ns_op [SAtom (TWord s)]); [atoms|]. eapply ns_mapR; eauto. }
      destruct (String.eqb s "not").
      { destruct args as [|x [|]]; try discriminate. intros H. apply bind_Ok in H as (g & G & H).
        inversion H; subst. inversion IHa; subst.
        apply (ns_one [SAtom (TWord s)] x [] g); [atoms|atoms|auto|].
        intros v. split; [inversion 1; auto|now constructor]. }
      destruct (String.eqb s "and").
      { intros H. apply bind_Ok in H as (ops & M & H). inversion H; subst.
        apply (ns_op [SAtom (TWord s)]); [atoms|]. eapply ns_mapR; eauto. }
      destruct (String.eqb s "imply").
      { destruct args as [|x [|y [|]]]; try discriminate. intros H.
        apply bind_Ok in H as (g & G & H). apply bind_Ok in H as (h & G' & H).
        apply bind_Ok in H as ([] & _ & H). inversion H; subst.
        inversion IHa as [|? ? Hx I2]; subst. inversion I2; subst.
        apply (ns_op [SAtom (TWord s)]); [atoms|]. repeat constructor; apply Hx || apply H2; auto. }
      destruct (String.eqb s "exists" || String.eqb s "forall").
      { destruct (if String.eqb s "exists" then _ else _) as [q r].
        destruct args as [|[|vs] [|x [|]]]; try discriminate. intros H.
        apply bind_Ok in H as (tl & TL & H). apply bind_Ok in H as (g & G & H).
        apply bind_Ok in H as ([] & _ & H). apply bind_Ok in H as (vars & V & H).
        inversion H; subst. inversion IHa as [|? ? _ I2]; subst. inversion I2; subst.
        apply (ns_one [SAtom (TWord s); SList vs] x [] g); [atoms|atoms|auto|].
        - constructor; [|constructor]. apply no_number_list. eauto.
        - intros v. split; [inversion 1; auto|now constructor]. }
      apply atomic_pred_ns.
    - cbn [gd]. destruct (String.eqb s "=" && starts_term args); [apply atomic_eq_ns|].
      destruct (Parser.comparison s) as [k|]; [|discriminate].
      destruct args as [|x [|y [|]]]; try discriminate. intros H.
      apply bind_Ok in H as (g & G & H). apply bind_Ok in H as (h & G' & H).
      inversion H; subst. apply (ns_op [SAtom (TOp s)]); [atoms|]. repeat constructor; apply f_exp_ns; auto.
  Qed.
  Lemma ns_empty : num_spec (SList []) (mk_or []).
  Proof. exact (ns_op [] [] (CBin OOr) [] (Forall_nil _) (Forall2_nil _)). Qed.
  Lemma emptyor_pregd_ns s f : emptyor_pregd c s = Ok f -> num_spec s f.
  Proof.
    destruct s as [|[|x l]]; cbn [emptyor_pregd]; try apply gd_ns. intros [= <-]. exact ns_empty.
  Qed.
  Lemma p_effect_ns s f : p_effect c s = Ok f -> num_spec s f.
  Proof.
    destruct s as [|[|[[]|] args]]; try apply atomic_formula_term_ns. unfold p_effect.
    destruct (String.eqb s "not").
    - destruct args as [|x [|]]; try discriminate. intros H. apply bind_Ok in H as (g & G & H).
      inversion H; subst.
      apply (ns_one [SAtom (TWord s)] x [] g); [atoms|atoms|now apply atomic_formula_term_ns|].
      intros v. split; [inversion 1; auto|now constructor].
    - destruct (assign_op s).
      + destruct args as [|h [|e [|]]]; try discriminate. intros H.
        apply bind_Ok in H as (g & G & H). apply bind_Ok in H as (g' & G' & H).
        inversion H; subst. apply (ns_op [SAtom (TWord s)]); [atoms|].
        constructor; [now apply f_head_ns|constructor; [now apply f_exp_ns|constructor]].
      + apply atomic_formula_term_ns.
  Qed.
  Lemma cond_effect_ns s f : cond_effect c s = Ok f -> num_spec s f.
  Proof.
    destruct s as [|[|[[]|] args]]; try apply p_effect_ns. unfold cond_effect.
    destruct (String.eqb s "and"); [|apply p_effect_ns].
    intros H. apply bind_Ok in H as (ops & M & H). inversion H; subst.
    apply (ns_op [SAtom (TWord s)]); [atoms|]. eapply ns_mapR; eauto.
    apply Forall_forall. intros x _ y. apply p_effect_ns.
  Qed.
  Lemma ns_when w x y f g : num_spec x f -> num_spec y g ->
    num_spec (SList [SAtom (TWord w); x; y]) (mk_when f g).
  Proof.
    intros [F1 F2] [G1 G2]. split.
    - intros s H. apply number_in_list in H as (z & [<-|[<-|[<-|[]]]] & H).
      + inversion H.
      + destruct (F1 s H) as (v & u & L & W & E). exists v, u. split; auto. split; auto. now apply W_when_c.
      + destruct (G1 s H) as (v & u & L & W & E). exists v, u. split; auto. split; auto. now apply W_when_e.
    - intros v W. inversion W; subst.
      + destruct (F2 v) as (s & N & L); auto. exists s. split; auto. apply number_in_list. exists x. simpl. auto.
      + destruct (G2 v) as (s & N & L); auto. exists s. split; auto. apply number_in_list. exists y. simpl. auto.
  Qed.
  Lemma effect_ns s : forall top f, effect c top s = Ok f -> num_spec s f.
  Proof.
    induction s as [t|l IH] using sexp_ind'; intros top f; [apply p_effect_ns|].
    destruct l as [|[[]|] args]; try (apply p_effect_ns).
    inversion IH as [|? ? _ IHa]; subst; clear IH. cbn [effect].
    destruct (top && String.eqb s "and").
    { intros H. apply bind_Ok in H as (ops & M & H). inversion H; subst.
      apply (ns_op [SAtom (TWord s)]); [atoms|]. eapply ns_mapR; eauto.
      eapply Forall_impl; [|exact IHa]. simpl. eauto. }
    destruct (String.eqb s "forall").
    { destruct args as [|[|vs] [|x [|]]]; try discriminate. intros H.
      apply bind_Ok in H as (tl & TL & H). apply bind_Ok in H as (g & G & H).
      apply bind_Ok in H as (vars & V & H).
      inversion H; subst. inversion IHa as [|? ? _ I2]; subst. inversion I2; subst.
      apply (ns_one [SAtom (TWord s); SList vs] x [] g); [atoms|atoms|eauto|].
      - constructor; [|constructor]. apply no_number_list. eauto.
      - intros v. split; [inversion 1; auto|now constructor]. }
    destruct (String.eqb s "when").
    { destruct args as [|x [|y [|]]]; try discriminate. intros H.
      apply bind_Ok in H as (g & G & H). apply bind_Ok in H as (h & G' & H).
      inversion H; subst. apply ns_when; [eapply gd_ns; eauto|eapply cond_effect_ns; eauto]. }
    destruct (String.eqb s "oneof").
    { destruct args as [|x args]; try discriminate. intros H.
      apply bind_Ok in H as (ops & M & H). apply bind_Ok in H as ([] & _ & H).
      inversion H; subst. apply (ns_op [SAtom (TWord s)]); [atoms|]. eapply ns_mapR; eauto.
      eapply Forall_impl; [|exact IHa]. simpl. eauto. }
    apply p_effect_ns.
  Qed.
  Lemma emptyor_effect_ns s f : emptyor_effect c s = Ok f -> num_spec s f.
  Proof.
    destruct s as [|[|x l]]; cbn [emptyor_effect]; try apply effect_ns.
    intros [= <-]. exact ns_empty.
  Qed.
End Num.

Lemma written_vars_no_number l g t : written_vars l g t -> Forall no_number l.
Proof.
  assert (V : forall items, Forall no_number (flat_map var_sx items)).
  { induction items; cbn; atoms. auto. }
  assert (T : forall t gs, written_type t gs -> no_number t).
  { intros x gs [(y & -> & _)|[_ ->]]; [apply no_number_atom; discriminate|].
    apply no_number_list. atoms. apply Forall_forall. intros z Hz. apply in_map_iff in Hz as (w & <- & _).
    apply no_number_atom; discriminate. }
  induction 1; auto. apply Forall_app. split; auto. atoms. constructor; eauto.
Qed.
Lemma domain_vars st l tl : g_vars (domain_ctx st) l = Ok tl -> Forall no_number l.
Proof.
  intros H. apply typed_list_variable_iff in H as (g & t & W & _). eapply written_vars_no_number; eauto.
Qed.
Lemma problem_vars l tl : g_vars problem_ctx l = Ok tl -> Forall no_number l.
Proof.
  cbn [problem_ctx g_vars]. intros H. apply bind_Ok in H as (ts & T & _). apply of_opt_Ok' in T.
  apply tl_vars_written in T as (g & t & W & _). eapply written_vars_no_number; eauto.
Qed.
