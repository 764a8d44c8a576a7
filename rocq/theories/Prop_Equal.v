(** C56: equal objects are interchangeable. *)
From Coq Require Import String List Bool QArith.
From Verif Require Import Py Names Reqs Logic Validation Core Sem Spec Spec_Core Spec_Effect Built.
From Verif Require Import Py_facts Logic_facts Names_facts Ops_facts Built_facts Effect_facts Order_facts CoreEq_facts Validation_facts Core_facts Subst_facts Spec_Subst Compose_facts Equal_facts.
Import ListNotations.
Open Scope string_scope.
Open Scope list_scope.
Close Scope Q_scope.

(** * C56 *)

(** Equal conditions hold in the same states, equal numeric expressions have the same value, equal
    effects make the same changes. *)
Theorem C56_meaning : forall I e f g, form_eqb f g = true ->
  (holds I e f <-> holds I e g) /\ (value I e f == value I e g)%Q
  /\ forall D, outcome I e f D <-> outcome I e g D.
Proof.
  intros I e f g E. split; [now apply holds_eq|]. split; [now apply value_eq|]. intros D. now apply outcome_eq.
Qed.
Print Assumptions C56_meaning.

(** And, Or, OneOf, Imply, the comparisons, the assignments and the arithmetic operators give equal
    results for equal operands. *)
Theorem C56_operators : forall c l m, list_eqb form_eqb l m = true -> form_eqb (mk_op c l) (mk_op c m) = true.
Proof. intros c l m. apply mk_op_cong. Qed.
Print Assumptions C56_operators.
Theorem C56_not_quantified : forall f g q vs ws, form_eqb f g = true -> set_eqb var_eqb vs ws = true ->
  form_eqb (mk_not f) (mk_not g) = true /\ form_eqb (mk_quant q vs f) (mk_quant q ws g) = true.
Proof.
  intros f g q vs ws E V. split; [exact E|]. cbn. rewrite (dedup_var_set _ _ V), E. destruct q; reflexivity.
Qed.
Print Assumptions C56_not_quantified.

(** Instances of equal formulas under equal mappings are equal, if they are defined. *)
Theorem C56_instances_partial : forall m m' f g f' g', is_dict m -> is_dict m' ->
  dict_eqb term_eqb term_eqb m m' = true -> form_eqb f g = true ->
  instantiate m f = Ok f' -> instantiate m' g = Ok g' -> form_eqb f' g' = true.
Proof.
  intros m m' f g f' g' D D' M. apply instantiate_cong. apply same_mapping_dict.
  assert (N : forall m, is_dict m -> NoDupE term_eqb (map fst m)).
  { intros d H. induction H as [|a d F H IH]; cbn; constructor; auto. apply memb_false. intros y Hy.
    apply in_map_iff in Hy as (b & <- & Hb). rewrite Forall_forall in F. auto. }
  apply dict_eqb_spec in M; auto. apply term_eqb_equiv.
Qed.
Print Assumptions C56_instances_partial.
Theorem C56_action_instances_partial : forall a b ts us a' b', action_eqb a b = true -> list_eqb term_eqb ts us = true ->
  action_instantiate a ts = Ok a' -> action_instantiate b us = Ok b' -> action_eqb a' b' = true.
Proof.
  intros a b ts us a' b' E T H1 H2. unfold action_eqb in E.
  apply andb_true_iff in E as [E E4]. apply andb_true_iff in E as [E E3]. apply andb_true_iff in E as [E1 E2].
  apply action_instantiate_inv in H1 as (L1 & N1 & P1 & A1 & B1), H2 as (L2 & N2 & P2 & A2 & B2).
  assert (X : forall o o1 o2 o3, option_eqb form_eqb o o1 = true -> inst_opt (mapping_of a ts) o = Ok o2 -> inst_opt (mapping_of b us) o1 = Ok o3 ->
     option_eqb form_eqb o2 o3 = true).
  { intros [f|] [g|] o2 o3 Q I1 I2; cbn in Q, I1, I2; try discriminate.
    - apply bind_Ok in I1 as (f1 & I1 & [= <-]). apply bind_Ok in I2 as (g1 & I2 & [= <-]). cbn.
      revert Q I1 I2. apply instantiate_cong. now apply same_mapping_zip.
    - injection I1 as <-. injection I2 as <-. reflexivity. }
  unfold action_eqb. rewrite N1, N2, P1, P2, E1, T, (X _ _ _ _ E3 A1 A2), (X _ _ _ _ E4 B1 B2). reflexivity.
Qed.
Print Assumptions C56_action_instances_partial.


(** Equal domains accept the same problems ... *)
Theorem C56_domain_verdict : forall p d d', domain_built d -> domain_built d' -> domain_eqb d d' = true ->
  (problem_check p d = Ok tt <-> problem_check p d' = Ok tt).
Proof. exact problem_check_equal. Qed.
Print Assumptions C56_domain_verdict.
(** ... and equal domains and problems the same plans, if no two actions of a domain have the same name. *)
Theorem C56_plan_verdict_partial : forall d d' p p' pl pl',
  NoDup (map a_name (d_actions d)) -> NoDup (map a_name (d_actions d')) ->
  domain_eqb d d' = true -> problem_eqb p p' = true -> plan_eqb pl pl' = true ->
  plan_check pl d p = Ok tt -> plan_check pl' d' p' = Ok tt.
Proof. exact plan_check_equal. Qed.
Print Assumptions C56_plan_verdict_partial.

(** Equality is too coarse for the rest: constants are compared by name only, types are ignored.
    One of two equal problems is accepted and the other is not. *)
Definition dom : domain := mkDomain "d" [TYPING] [("t", None)] [] [("p", [TVar (mkVar "x" [])])] [] [] [].
Definition prob (g : option string) : problem := mkProblem "q" None "d" None [("c", g)] [] (FPred "p" [TConst "c" None]) None.
Theorem C56_refuted : ~ (forall p q d, problem_eqb p q = true -> problem_check p d = Ok tt -> problem_check q d = Ok tt).
Proof.
  intros H. specialize (H (prob (Some "t")) (prob (Some "u")) dom eq_refl eq_refl). vm_compute in H. discriminate H.
Qed.
Print Assumptions C56_refuted.
(** both are problems the constructor makes *)
Example C56_refuted_ex : forall g, mk_problem "q" None (Some "d") None [("c", g)] [] (Some (FPred "p" [TConst "c" None])) None = Ok (prob g).
Proof. reflexivity. Qed.
(** One of two equal formulas has an instance and the other has none. *)
Theorem C56_instances_refuted : ~ (forall m f g f', form_eqb f g = true -> built f -> built g -> instantiate m f = Ok f' ->
  exists g', instantiate m g = Ok g').
Proof.
  intros H. pose (z := mkVar "z" []). pose (c := TConst "c" (Some "t")).
  destruct (H [(TVar z, c)] (FPred "p" [c; TVar z]) (FPred "p" [TConst "c" (Some "u"); TVar z]) (FPred "p" [c; c])) as (g' & X); try reflexivity.
  - apply (B_pred "p" [c; TVar z]). reflexivity.
  - apply (B_pred "p" [TConst "c" (Some "u"); TVar z]). reflexivity.
  - vm_compute in X. discriminate X.
Qed.
Print Assumptions C56_instances_refuted.

(** different objects that are equal, in each of the theorems above *)
Example C56_ex :
  let c := TConst "c" (Some "t") in let c' := TConst "c" None in let z := TVar (mkVar "z" ["t"; "u"]) in let z' := TVar (mkVar "z" ["u"; "t"]) in
  let f := FPred "p" [c; z] in let g := FPred "p" [c'; z'] in
  f <> g /\ form_eqb f g = true /\ mk_and [f; g] = f /\ mk_and [g; f] = g
  /\ dict_eqb term_eqb term_eqb [(z, c)] [(z', c')] = true
  /\ instantiate [(z, c)] f = Ok (FPred "p" [c; c]) /\ instantiate [(z', c')] g = Ok (FPred "p" [c'; c']).
Proof. cbv zeta. split; [discriminate|]. repeat split. Qed.
(** two domains that list their types, requirements and actions in different orders *)
Example C56_verdict_ex :
  let x := TVar (mkVar "x" ["t"]) in let f := FPred "p" [x] in
  let a := mkAction "a" [x] (Some f) (Some (FNot f)) in let b := mkAction "b" [x] (Some (FNot f)) (Some f) in
  let d := mkDomain "d" [TYPING; STRIPS] [("t", None); ("u", Some "t")] [] [("p", [x])] [] [] [a; b] in
  let d' := mkDomain "d" [STRIPS; TYPING] [("u", Some "t"); ("t", None)] [] [("p", [x])] [] [] [b; a] in
  domain_built d /\ domain_built d' /\ domain_eqb d d' = true
  /\ NoDup (map a_name (d_actions d)) /\ NoDup (map a_name (d_actions d'))
  /\ problem_check (prob (Some "u")) d = Ok tt /\ problem_check (prob (Some "u")) d' = Ok tt
  /\ plan_check [("b", [("c", None)])] d (prob (Some "u")) = Ok tt.
Proof.
  cbv zeta. set (x := TVar (mkVar "x" ["t"])). set (f := FPred "p" [x]).
  set (a := mkAction "a" [x] (Some f) (Some (FNot f))). set (b := mkAction "b" [x] (Some (FNot f)) (Some f)).
  split; [exists "d", [TYPING; STRIPS], (Some [("t", None); ("u", Some "t")]), [], [("p", [x])], [], [], [a; b]; reflexivity|].
  split; [exists "d", [STRIPS; TYPING], (Some [("u", Some "t"); ("t", None)]), [], [("p", [x])], [], [], [b; a]; reflexivity|].
  split; [reflexivity|].
  split; [cbn; constructor; [intros [E|[]]; discriminate E|repeat constructor; auto]|].
  split; [cbn; constructor; [intros [E|[]]; discriminate E|repeat constructor; auto]|].
  repeat split; reflexivity.
Qed.
