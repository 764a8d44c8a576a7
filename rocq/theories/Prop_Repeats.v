(** C07: what sums and products are worth in all cases. *)
From Coq Require Import String List Bool ZArith QArith.
From Verif Require Import Py Names Logic Built Sem Py_facts Logic_facts Ops_facts Built_facts Spec_Repeats Prop_Logic.
Import ListNotations.
Open Scope string_scope.

Lemma sum_copies I e l : forall seen,
  (sum_of I e l == sum_of I e (dedup_from form_eqb seen l) + sum_of I e (later_copies seen l))%Q.
Proof.
  induction l as [|x l IH]; intros seen; [reflexivity|]. cbn [dedup_from later_copies].
  destruct (memb form_eqb x seen); cbn [sum_of fold_right]; fold (sum_of I e l);
    [rewrite (IH seen)|rewrite (IH (x :: seen))]; unfold sum_of; ring.
Qed.
Lemma product_copies I e l : forall seen,
  (product_of I e l == product_of I e (dedup_from form_eqb seen l) * product_of I e (later_copies seen l))%Q.
Proof.
  induction l as [|x l IH]; intros seen; [reflexivity|]. cbn [dedup_from later_copies].
  destruct (memb form_eqb x seen); cbn [product_of fold_right]; fold (product_of I e l);
    [rewrite (IH seen)|rewrite (IH (x :: seen))]; unfold product_of; ring.
Qed.
Lemma sum_value I e ops : length ops <> 1 ->
  (value I e (mk_binfun BPlus ops) == sum_of I e (dedup form_eqb (flat_map (leaves (CFun BPlus)) ops)))%Q.
Proof.
  intros N. unfold mk_binfun, mk_op. simpl. rewrite simplify_spec. cbv iota.
  destruct ops as [|x [|y l]]; [reflexivity|now elim N|].
  remember (x :: y :: l) as ops. clear Heqops. unfold sum_of.
  destruct (dedup form_eqb _) as [|a [|b m]]; reflexivity.
Qed.
Lemma product_value I e ops : length ops <> 1 ->
  (value I e (mk_binfun BTimes ops) == product_of I e (dedup form_eqb (flat_map (leaves (CFun BTimes)) ops)))%Q.
Proof.
  intros N. unfold mk_binfun, mk_op. simpl. rewrite simplify_spec. cbv iota.
  destruct ops as [|x [|y l]]; [reflexivity|now elim N|].
  remember (x :: y :: l) as ops. clear Heqops. unfold product_of.
  destruct (dedup form_eqb _) as [|a [|b m]]; reflexivity.
Qed.
Lemma sum_flat I e ops : (sum_of I e (flat_map (leaves (CFun BPlus)) ops) == sum_of I e ops)%Q.
Proof.
  unfold sum_of. induction ops; simpl; [reflexivity|]. rewrite plus_app, plus_leaves, IHops. reflexivity.
Qed.
Lemma product_flat I e ops : (product_of I e (flat_map (leaves (CFun BTimes)) ops) == product_of I e ops)%Q.
Proof.
  unfold product_of. induction ops; simpl; [reflexivity|]. rewrite times_app, times_leaves, IHops. reflexivity.
Qed.

(** What is lost is exactly the operands (after flattening nested sums) that occur again: the sum of the
    operands is the value of the object plus theirs.  So the value is right exactly if theirs is 0. *)
Lemma sum_exact (I : interp) (e : env I) ops : length ops <> 1 ->
  (sum_of I e ops == value I e (mk_binfun BPlus ops)
                     + sum_of I e (later_copies [] (flat_map (leaves (CFun BPlus)) ops)))%Q /\
  ((value I e (mk_binfun BPlus ops) == sum_of I e ops)%Q <->
   (sum_of I e (later_copies [] (flat_map (leaves (CFun BPlus)) ops)) == 0)%Q).
Proof.
  intros N. assert (E : (sum_of I e ops == value I e (mk_binfun BPlus ops)
                     + sum_of I e (later_copies [] (flat_map (leaves (CFun BPlus)) ops)))%Q).
  { rewrite sum_value by auto. rewrite <- (sum_flat I e ops). apply (sum_copies I e _ []). }
  split; [exact E|]. rewrite E. split; intros H.
  - rewrite <- (Qplus_inj_l _ _ (value I e (mk_binfun BPlus ops))). rewrite <- H. ring.
  - rewrite H. ring.
Qed.
Theorem C07_sum_exact : forall (I : interp) (e : env I) ops, length ops <> 1 ->
  (sum_of I e ops == value I e (mk_binfun BPlus ops)
                     + sum_of I e (later_copies [] (flat_map (leaves (CFun BPlus)) ops)))%Q /\
  ((value I e (mk_binfun BPlus ops) == sum_of I e ops)%Q <->
   (sum_of I e (later_copies [] (flat_map (leaves (CFun BPlus)) ops)) == 0)%Q).
Proof. exact sum_exact. Qed.
Print Assumptions C07_sum_exact.
(** a sum, product or quotient of one operand has the value of that operand, a difference minus this value *)
Theorem C07_one : forall (I : interp) (e : env I) x,
  (value I e (mk_binfun BPlus [x]) == value I e x)%Q /\ (value I e (mk_binfun BTimes [x]) == value I e x)%Q /\
  (value I e (mk_binfun BMinus [x]) == - value I e x)%Q /\ (value I e (mk_binfun BDivide [x]) == value I e x)%Q.
Proof. intros. repeat split; simpl; try ring; reflexivity. Qed.
Print Assumptions C07_one.

(** Products: the product of the operands is the value times that of the operands that occur again. *)
Theorem C07_product_exact : forall (I : interp) (e : env I) ops, length ops <> 1 ->
  (product_of I e ops == value I e (mk_binfun BTimes ops)
                         * product_of I e (later_copies [] (flat_map (leaves (CFun BTimes)) ops)))%Q.
Proof.
  intros I e ops N. rewrite product_value by auto. rewrite <- (product_flat I e ops). apply (product_copies I e _ []).
Qed.
Print Assumptions C07_product_exact.

(** x + (y + x): the second x is lost; and 0 + x + 0 keeps its value although the second 0 is lost *)
Example C07_ex_exact :
  let x := FNumFun "x" [] in let y := FNumFun "y" [] in let zero := FNumVal (NInt 0) in
  later_copies [] (flat_map (leaves (CFun BPlus)) [x; FBinFun BPlus [y; x]]) = [x] /\
  later_copies [] (flat_map (leaves (CFun BPlus)) [zero; x; zero]) = [zero] /\
  (sum_of ex_interp ex_env [zero] == 0)%Q.
Proof. repeat split. Qed.

(** Differences and quotients of any number of expressions (other than one), for all expressions: nested ones of the same kind are
    flattened, repeated operands are dropped, and the first of what is left is diminished (divided) by the
    others; if only one operand is left, a difference becomes its negation, a quotient the operand itself. *)
Lemma minus_fold I e r : forall q, (fold_left (fun q g => q - value I e g) r q == q - sum_of I e r)%Q.
Proof.
  induction r as [|x r IH]; intros q; cbn [fold_left]; [unfold sum_of; simpl; ring|].
  rewrite IH. unfold sum_of. simpl. ring.
Qed.
Lemma divide_fold I e r : forall q, (fold_left (fun q g => q / value I e g) r q == q / product_of I e r)%Q.
Proof.
  induction r as [|x r IH]; intros q; cbn [fold_left].
  - unfold product_of, Qdiv. simpl. change (/ 1)%Q with 1%Q. ring.
  - rewrite IH. unfold product_of, Qdiv. simpl. rewrite Qinv_mult_distr. ring.
Qed.
Theorem C07_difference_exact : forall (I : interp) (e : env I) ops, length ops <> 1 ->
  (value I e (mk_binfun BMinus ops) ==
   match dedup form_eqb (flat_map (leaves (CFun BMinus)) ops) with
   | [] => 0
   | [a] => - value I e a
   | a :: r => value I e a - sum_of I e r
   end)%Q.
Proof.
  intros I e ops N. unfold mk_binfun, mk_op. cbn [metaclass]. rewrite simplify_spec. cbv iota.
  destruct ops as [|x [|y l]]; [reflexivity|now elim N|].
  remember (x :: y :: l) as ops. clear Heqops.
  destruct (dedup form_eqb _) as [|a [|b r]]; [reflexivity|reflexivity|]. apply (minus_fold I e (b :: r)).
Qed.
Print Assumptions C07_difference_exact.
Theorem C07_quotient_exact : forall (I : interp) (e : env I) ops, length ops <> 1 ->
  (value I e (mk_binfun BDivide ops) ==
   match dedup form_eqb (flat_map (leaves (CFun BDivide)) ops) with
   | [] => 0
   | a :: r => value I e a / product_of I e r
   end)%Q.
Proof.
  intros I e ops N. unfold mk_binfun, mk_op. cbn [metaclass]. rewrite simplify_spec. cbv iota.
  destruct ops as [|x [|y l]]; [reflexivity|now elim N|].
  remember (x :: y :: l) as ops. clear Heqops.
  destruct (dedup form_eqb _) as [|a [|b r]]; [reflexivity| |].
  - apply (divide_fold I e []).
  - apply (divide_fold I e (b :: r)).
Qed.
Print Assumptions C07_quotient_exact.
(** x - x is -x *)
Theorem C07_self_refuted : forall n, parse_function n = Ok n ->
  built (FNumFun n []) /\
  forall (I : interp) (e : env I), ~ (value I e (FNumFun n []) == 0)%Q ->
  ~ (value I e (mk_binfun BMinus [FNumFun n []; FNumFun n []]) == value I e (FNumFun n []) - value I e (FNumFun n []))%Q.
Proof.
  intros n P. split; [apply (B_numfun n []); unfold mk_numfun; now rewrite P|].
  intros I e N H. apply N. rewrite C07_difference_exact in H by discriminate. cbn [flat_map leaves app] in H.
  unfold dedup in H. cbn [dedup_from memb existsb] in H.
  assert (E : form_eqb (FNumFun n []) (FNumFun n []) = true) by apply (eqv_refl _ form_eqb_equiv).
  rewrite E in H. cbn in H |- *.
  rewrite <- (Qopp_involutive (i_func I n [])). rewrite H. ring.
Qed.
Print Assumptions C07_self_refuted.
Example C07_ex_self : parse_function "x" = Ok "x" /\ ~ (value ex_interp ex_env (FNumFun "x" []) == 0)%Q.
Proof. split; [reflexivity|vm_compute; discriminate]. Qed.
