(** The text of a number is a numeral of the same value. *)
From Coq Require Import String Ascii List Bool NArith ZArith QArith Lia DecimalString DecimalN DecimalPos.
From Verif Require Import Py Names Logic Lexer Show Parser Spec Spec_Numbers.
From Verif Require Spec_Same.
From Verif Require Import Py_facts Lex_facts Number_facts.
Import ListNotations.
Open Scope string_scope.
Open Scope list_scope.

Lemma show_N_nonempty n : show_N n <> "".
Proof. unfold show_N. destruct (N.to_uint n); cbn; discriminate. Qed.
Lemma to_uint_not_nil n : N.to_uint n <> Decimal.Nil.
Proof.
  destruct n as [|p]; cbn; [discriminate|]. intros H.
  assert (X : N.of_uint (N.to_uint (Npos p)) = Npos p) by apply DecimalN.Unsigned.of_to.
  cbn in X. rewrite H in X. discriminate.
Qed.
Lemma show_N_digits n : Parser.digits (show_N n) = Ok n.
Proof.
  unfold Parser.digits, show_N.
  assert (E : NilZero.string_of_uint (N.to_uint n) = NilEmpty.string_of_uint (N.to_uint n)).
  { pose proof (to_uint_not_nil n). destruct (N.to_uint n); auto. contradiction. }
  rewrite E, NilEmpty.usu. f_equal. apply DecimalN.Unsigned.of_to.
Qed.
Lemma show_N_horner n : horner 0 (show_N n) = Some (Z.of_N n).
Proof. apply digits_horner, show_N_digits. Qed.
Lemma show_digit n : (n < 10)%N -> exists c, show_N n = String c "" /\ digit c = Some (Z.of_N n).
Proof.
  intros H. destruct n as [|p]; [eexists; split; reflexivity|].
  do 4 (destruct p as [p|p|]; try (eexists; split; reflexivity); try (exfalso; lia)).
Qed.

Lemma pad_digits_spec e : forall m, String.length (pad_digits e m) = e
  /\ horner 0 (pad_digits e m) = Some (Z.of_N (m mod 10 ^ N.of_nat e)).
Proof.
  induction e as [|e IH]; intros m; cbn [pad_digits].
  - split; auto. cbn. f_equal. rewrite N.mod_1_r. reflexivity.
  - destruct (IH (m / 10)%N) as [L H].
    destruct (show_digit (m mod 10)) as (c & E & D); [apply N.mod_lt; lia|]. rewrite E. split.
    + clear -L. revert L. generalize (pad_digits e (m / 10)). intros s <-. induction s; cbn; auto.
    + rewrite horner_app, H. cbn [horner]. rewrite D. f_equal.
      rewrite Nnat.Nat2N.inj_succ, N.pow_succ_r'.
      rewrite N.mod_mul_r by (try apply N.pow_nonzero; lia). lia.
Qed.

Lemma norm_dec_spec e : forall m, let '(m', e') := norm_dec m e in
  (inject_Z (Z.of_N m) / inject_Z (10 ^ Z.of_nat e) == inject_Z (Z.of_N m') / inject_Z (10 ^ Z.of_nat e'))%Q
  /\ (e <> 0%nat -> e' <> 0%nat) /\ (e = 0%nat -> e' = 0%nat /\ m' = m).
Proof.
  induction e as [|e IH]; intros m.
  - cbn [norm_dec]. split; [reflexivity|]. split; auto.
  - cbn [norm_dec]. destruct e as [|e]; [split; [reflexivity|split; [auto|discriminate]]|].
    destruct (m mod 10 =? 0)%N eqn:E; [|split; [reflexivity|split; [auto|discriminate]]].
    specialize (IH (m / 10)%N). destruct (norm_dec (m / 10) (S e)) as [m' e'].
    destruct IH as (H1 & H2 & H3). split; [|split; [auto|discriminate]].
    rewrite <- H1. apply N.eqb_eq in E.
    assert (M : Z.of_N m = (10 * Z.of_N (m / 10))%Z).
    { pose proof (N.div_mod m 10 ltac:(lia)). lia. }
    rewrite M. assert (P : (10 ^ Z.of_nat (S (S e)) = 10 * 10 ^ Z.of_nat (S e))%Z).
    { rewrite (Nat2Z.inj_succ (S e)), Z.pow_succ_r; lia. }
    rewrite P. rewrite !inject_Z_mult. field.
    intros X. apply (Z.pow_nonzero 10 (Z.of_nat (S e))); try lia. unfold Qeq in X. cbn -[Z.pow Z.of_nat] in X. lia.
Qed.

(** not negative, and not a raw token *)
Definition nonneg (v : num) : Prop :=
  match v with NInt z => (0 <= z)%Z | NDec m _ => (0 <= m)%Z | NStr _ => False end.

Lemma show_num_numeral v : nonneg v -> exists q r, numeral (show_num v) q /\ num_value v = Some r /\ (q == r)%Q.
Proof.
  destruct v as [z|m e|s]; cbn [nonneg]; intros H; [| |contradiction].
  - exists (inject_Z z), (inject_Z z). split; [|split; reflexivity]. left. exists z. split; [|split].
    + destruct z; cbn; [discriminate|apply show_N_nonempty|lia].
    + destruct z; cbn [show_num show_int]; [reflexivity|rewrite show_N_horner; reflexivity|lia].
    + reflexivity.
  - cbn [show_num num_value]. destruct (Z.ltb_spec m 0); [lia|]. cbn [String.append].
    eexists (inject_Z m / inject_Z (10 ^ Z.of_nat e))%Q, _. split; [|split; [reflexivity|]].
    + right. unfold show_dec_N. pose proof (norm_dec_spec e (Z.abs_N m)) as N.
      destruct (norm_dec (Z.abs_N m) e) as [m' e'].
      destruct N as (N1 & N2 & N3). rewrite N2Z.inj_abs_N, Z.abs_eq in N1 by auto.
      destruct e' as [|e'].
      * exists (show_N m'), "0", (Z.of_N m'), 0%Z. split; [reflexivity|].
        split; [apply show_N_nonempty|]. split; [discriminate|]. split; [apply show_N_horner|].
        split; [reflexivity|]. rewrite N1. cbn. field.
      * set (p := (10 ^ N.of_nat (S e'))%N). exists (show_N (m' / p)), (pad_digits (S e') m'), (Z.of_N (m' / p)), (Z.of_N (m' mod p)).
        destruct (pad_digits_spec (S e') m') as [L Hn].
        split; [reflexivity|]. split; [apply show_N_nonempty|]. split.
        { intros X. rewrite X in L. discriminate. }
        split; [apply show_N_horner|]. split; [exact Hn|]. rewrite N1, L.
        assert (P : (10 ^ Z.of_nat (S e'))%Z = Z.of_N p).
        { unfold p. rewrite N2Z.inj_pow. now rewrite nat_N_Z. }
        rewrite P. assert (NZ : p <> 0%N) by (apply N.pow_nonzero; lia).
        pose proof (N.div_mod m' p NZ) as DM.
        assert (DZ : Z.of_N m' = (Z.of_N p * Z.of_N (m' / p) + Z.of_N (m' mod p))%Z) by lia.
        rewrite DZ, inject_Z_plus, inject_Z_mult. field.
        intros X. unfold Qeq in X. cbn in X. lia.
    + unfold Qeq, Qdiv, Qmult, Qinv, inject_Z. cbn.
      assert (P : (0 < 10 ^ Z.of_nat e)%Z) by (apply Z.pow_pos_nonneg; lia).
      destruct (10 ^ Z.of_nat e)%Z eqn:E; cbn; lia.
Qed.
Lemma literal_float s w : num_literal s = Ok w ->
  Spec_Same.is_float w = match snd (split_dot s) with Some _ => true | None => false end.
Proof.
  unfold num_literal. destruct (split_dot s) as [i [f|]]; intros H; apply bind_Ok in H as (n & _ & H); injection H as <-; reflexivity.
Qed.
Lemma show_num_dot v : nonneg v ->
  match snd (split_dot (show_num v)) with Some _ => true | None => false end = Spec_Same.is_float v.
Proof.
  destruct v as [z|m e|s]; cbn [nonneg]; intros H; [| |contradiction].
  - destruct z; cbn [show_num show_int]; [reflexivity| |lia].
    now rewrite (split_dot_none _ _ _ (show_N_horner (Npos p))).
  - cbn [show_num]. destruct (Z.ltb_spec m 0); [lia|]. cbn [String.append]. unfold show_dec_N.
    destruct (norm_dec (Z.abs_N m) e) as [m' [|e']].
    + change ".0" with ("." +++ "0"). now rewrite (split_dot_dot _ _ _ _ (show_N_horner m')).
    + set (p := (10 ^ N.of_nat (S e'))%N). now rewrite (split_dot_dot _ _ _ _ (show_N_horner (m' / p))).
Qed.
Lemma show_num_literal v : nonneg v -> exists w, num_literal (show_num v) = Ok w /\ num_eqb w v = true
  /\ Spec_Same.is_float w = Spec_Same.is_float v.
Proof.
  intros H. destruct (show_num_numeral v H) as (q & r & N & V & E).
  destruct (numeral_literal _ _ N) as (w & r' & W & W1 & W2). exists w. split; auto.
  split; [|now rewrite (literal_float _ _ W), show_num_dot].
  unfold num_eqb. rewrite W1, V. assert (X : Qeq_bool r' r = true) by (apply Qeq_bool_iff; now rewrite W2).
  destruct w, v; auto; discriminate.
Qed.
