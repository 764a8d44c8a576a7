(** Equal numbers, terms and atoms have the same text. *)
From Coq Require Import String Ascii List Bool Arith ZArith NArith QArith Lia.
From Verif Require Import Py Names Reqs Logic Show Spec_Print.
From Verif Require Import Py_facts Logic_facts NumShow_facts.
From Verif Require Spec_Same.
Import ListNotations.
Open Scope string_scope.
Open Scope list_scope.

(** ** numbers *)
Lemma show_dec_up m e : show_dec_N (m * 10) (S e) = show_dec_N m e.
Proof.
  unfold show_dec_N. destruct e as [|e].
  - cbn [norm_dec]. change (10 ^ N.of_nat 1)%N with 10%N. rewrite N.div_mul by lia.
    cbn [pad_digits]. rewrite N.mod_mul by lia. reflexivity.
  - cbn [norm_dec]. rewrite N.mod_mul, N.div_mul by lia. reflexivity.
Qed.
Lemma show_dec_ups k : forall m e, show_dec_N (m * 10 ^ N.of_nat k) (k + e) = show_dec_N m e.
Proof.
  induction k as [|k IH]; intros m e.
  - now rewrite N.mul_1_r.
  - rewrite Nnat.Nat2N.inj_succ, N.pow_succ_r', <- (IH m e).
    replace (m * (10 * 10 ^ N.of_nat k))%N with (m * 10 ^ N.of_nat k * 10)%N by lia. apply show_dec_up.
Qed.
Lemma pow10_N e : Z.of_N (10 ^ N.of_nat e) = (10 ^ Z.of_nat e)%Z.
Proof. now rewrite N2Z.inj_pow, nat_N_Z. Qed.
Lemma pow10_pos e : (0 < 10 ^ Z.of_nat e)%Z.
Proof. apply Z.pow_pos_nonneg; lia. Qed.
Lemma show_dec_same m1 e1 m2 e2 : (e1 <= e2)%nat -> (m1 * 10 ^ Z.of_nat e2 = m2 * 10 ^ Z.of_nat e1)%Z ->
  show_num (NDec m1 e1) = show_num (NDec m2 e2).
Proof.
  intros L E. set (k := (e2 - e1)%nat).
  assert (M : m2 = (m1 * 10 ^ Z.of_nat k)%Z).
  { replace (Z.of_nat e2) with (Z.of_nat k + Z.of_nat e1)%Z in E by (unfold k; lia).
    rewrite Z.pow_add_r, Z.mul_assoc in E by lia. apply Z.mul_cancel_r in E; auto.
    pose proof (pow10_pos e1). lia. }
  subst m2. pose proof (pow10_pos k) as P. cbn [show_num].
  replace e2 with (k + e1)%nat by (unfold k; lia).
  assert (A : Z.abs_N (m1 * 10 ^ Z.of_nat k) = (Z.abs_N m1 * 10 ^ N.of_nat k)%N).
  { apply N2Z.inj. rewrite N2Z.inj_mul, pow10_N, !N2Z.inj_abs_N, Z.abs_mul. lia. }
  rewrite A, show_dec_ups. f_equal.
  assert (B : (m1 * 10 ^ Z.of_nat k <? 0)%Z = (m1 <? 0)%Z); [|now rewrite B].
  apply Bool.eq_iff_eq_true. rewrite !Z.ltb_lt. nia.
Qed.
Lemma show_num_same x y : num_eqb x y = true -> Spec_Same.is_float x = Spec_Same.is_float y -> show_num x = show_num y.
Proof.
  destruct x as [z|m e|s], y as [z'|m' e'|s']; cbn [Spec_Same.is_float]; intros E K; try discriminate;
    unfold num_eqb, num_value in E; try discriminate.
  - apply Qeq_bool_iff in E. unfold Qeq, inject_Z in E. cbn in E. replace z' with z by lia. reflexivity.
  - apply Qeq_bool_iff in E. unfold Qeq in E. cbn [Qnum Qden] in E.
    rewrite !Z2Pos.id in E by apply pow10_pos.
    destruct (le_lt_dec e e').
    + now apply show_dec_same.
    + symmetry. apply show_dec_same; [lia|]. lia.
  - apply String.eqb_eq in E. now subst.
Qed.

(** ** terms and variables *)
Lemma show_term_same t u : term_eqb t u = true -> show_term t = show_term u.
Proof.
  destruct t as [n g|v], u as [m h|w]; simpl; intros E; try discriminate.
  - now apply String.eqb_eq.
  - unfold var_eqb in E. apply andb_true_iff in E as [E _]. apply String.eqb_eq in E. unfold show_var. now rewrite E.
Qed.
Lemma show_terms_same ts : forall us, list_eqb term_eqb ts us = true -> map show_term ts = map show_term us.
Proof.
  induction ts as [|t ts IH]; intros [|u us] E; simpl in *; try discriminate; auto.
  apply andb_true_iff in E as [E1 E2]. f_equal; auto. now apply show_term_same.
Qed.
Lemma show_atom_same n m ts us : String.eqb n m && list_eqb term_eqb ts us = true -> show_atom n ts = show_atom m us.
Proof.
  intros E. apply andb_true_iff in E as [E1 E2]. apply String.eqb_eq in E1. subst m.
  pose proof (show_terms_same _ _ E2) as M. unfold show_atom. destruct ts, us; try discriminate; auto. now rewrite M.
Qed.
