(** C32: printed problems. *)
From Coq Require Import String List Bool Arith ZArith QArith Lia.
From Verif Require Import Py Names Reqs Logic Built Validation Core Lexer Show Parser.
From Verif Require Import Spec Spec_Core Spec_Parse Spec_Numbers Spec_Text Spec_Problem.
From Verif Require Import Py_facts Names_facts CoreEq_facts ProblemText_facts Prop_Text.
Import ListNotations.
Open Scope string_scope.
Open Scope list_scope.

(** A problem that PDDL text can express and that has no domain object is read back equal.
    [expressible_problem] (Spec_Problem.v) asks for legal object names and types, an initial state
    of ground literals and non-negative function values, a goal made of literals, conjunctions and
    comparisons, and metric numbers kept as text. *)
Theorem C32_problems_partial : forall p, problem_reach p -> expressible_problem p -> p_domain p = None ->
  exists q, parse_problem (show_problem p) = Ok q /\ problem_eqb q p = true.
Proof.
  intros p R E D. destruct (parse_shown_problem p R E) as (q & Q & B). exists q. split; auto.
  now apply read_back_eqb.
Qed.
Print Assumptions C32_problems_partial.

(** A problem with a domain object is read back without it; assigning that domain to the problem
    read back succeeds and makes the two equal. *)
Theorem C32_with_domain_partial : forall p d, problem_reach p -> expressible_problem p -> p_domain p = Some d ->
  NoDupE atom_eqb (map fst (d_functions d)) ->
  exists q q', parse_problem (show_problem p) = Ok q /\ set_domain q d = (q', Ok tt) /\ problem_eqb q' p = true.
Proof.
  intros p d R E D N. destruct (parse_shown_problem p R E) as (q & Q & B).
  destruct (read_back_set_domain q p d B R D N) as (q' & S1 & S2). exists q, q'. auto.
Qed.
Print Assumptions C32_with_domain_partial.

(** The objects keep their types, which == does not compare. *)
Theorem C32_objects : forall p, problem_reach p -> expressible_problem p ->
  exists q, parse_problem (show_problem p) = Ok q /\ (forall c, In c (p_objects q) <-> In c (p_objects p)).
Proof.
  intros p R E. destruct (parse_shown_problem p R E) as (q & Q & B). exists q. split; auto.
  intros c. pose proof (rb_objects q p B) as P. split; intros H.
  - now apply (Permutation.Permutation_in _ P).
  - now apply (Permutation.Permutation_in _ (Permutation.Permutation_sym P)).
Qed.
Print Assumptions C32_objects.

(** Without these conditions the property is false of the code. *)

(** no parsed problem equals a problem that has a domain object *)
Theorem C32_domain_refuted : forall s p q, parse_problem s = Ok q -> p_domain p <> None -> problem_eqb q p = false.
Proof.
  intros s p q Q D. apply Problem_facts.parse_problem_inv in Q as (n & dn & l & _ & Q).
  apply Problem_facts.problem_rule_inv in Q as (o1 & o2 & inits & g & o5 & rs & os & init & goal & m & H & _ & _ & _ & _ & _ & M).
  apply Core_facts.mk_problem_inv in M as (E & _). unfold problem_eqb. rewrite E.
  destruct (p_domain p); [|congruence]. cbn [option_eqb]. now rewrite andb_false_r.
Qed.
Print Assumptions C32_domain_refuted.

(** a disjunctive goal, a negative initial value and a metric with a number do not survive *)
Definition cost : form := FNumFun "cost" [].
Theorem C32_refuted : exists p1 p2 p3 q3,
  Forall problem_reach [p1; p2; p3] /\ Forall (fun p => p_domain p = None) [p1; p2; p3]
  /\ parse_problem (show_problem p1) = Err (PDDLMissingRequirementError DIS_PRECONDITION)
  /\ parse_problem (show_problem p2) = Err LarkSyntaxError
  /\ parse_problem (show_problem p3) = Ok q3 /\ problem_eqb q3 p3 = false.
Proof.
  set (mk := fun init goal m => mk_problem "p" None (Some "d") (Some [ADL; NUMERIC_FLUENTS]) [] init (Some goal) m).
  assert (R : forall init goal m p, mk init goal m = Ok p -> problem_reach p).
  { intros init goal m p H. unfold mk in H. eapply PR_new; [|exact H]. discriminate. }
  pose (i1 := @nil form). pose (g1 := FBin OOr [FPred "a" []; FPred "b" []]).
  pose (i2 := [FBinFun BEqual [cost; FNumVal (NInt (-1))]]). pose (g2 := FPred "a" []).
  pose (m3 := mkMetric (FBinFun BPlus [cost; FNumVal (NInt 2)]) "minimize").
  destruct (mk i1 g1 None) as [p1|] eqn:E1; [|vm_compute in E1; discriminate].
  destruct (mk i2 g2 None) as [p2|] eqn:E2; [|vm_compute in E2; discriminate].
  destruct (mk i1 g2 (Some m3)) as [p3|] eqn:E3; [|vm_compute in E3; discriminate].
  pose proof (R _ _ _ _ E1). pose proof (R _ _ _ _ E2). pose proof (R _ _ _ _ E3).
  destruct (parse_problem (show_problem p3)) as [q3|] eqn:E4;
    [|vm_compute in E3; inversion E3; subst; vm_compute in E4; discriminate].
  exists p1, p2, p3, q3.
  vm_compute in E1, E2, E3. inversion E1; inversion E2; inversion E3; subst. vm_compute in E4. inversion E4; subst.
  split; [|split; [|split; [|split; [|split]]]].
  - repeat apply Forall_cons; [assumption..|apply Forall_nil].
  - repeat constructor.
  - vm_compute. reflexivity.
  - vm_compute. reflexivity.
  - vm_compute. reflexivity.
  - vm_compute. reflexivity.
Qed.
Print Assumptions C32_refuted.

(** a problem that meets the hypotheses *)
Definition blk : option string := Some "block".
Definition ex_problem : res problem :=
  mk_problem "p01" None (Some "blocks") (Some [STRIPS; TYPING; NUMERIC_FLUENTS])
    [("a", blk); ("b", blk); ("t", None)]
    [FPred "on" [TConst "a" blk; TConst "b" blk]; FNot (FPred "clear" [TConst "b" blk]);
     FPred "ready" []; FBinFun BEqual [FNumFun "weight" [TConst "a" blk]; FNumVal (NDec 125 1)]]
    (Some (FBin OAnd [FPred "on" [TConst "b" blk; TConst "a" blk];
                      FNot (FPred "ready" []);
                      FBinFun BLessEq [FNumFun "weight" [TConst "b" blk]; FNumVal (NInt 3)]]))
    (Some (mkMetric (FBinFun BPlus [cost; FBinFun BTimes [FNumVal (NStr "2.5"); FNumFun "weight" [TConst "a" blk]]])
                    "minimize")).
Ltac ground_tac := repeat apply Forall_cons; try apply Forall_nil; eexists; eexists; (split; [reflexivity|legal_tac]).
Example C32_ex : exists p q, ex_problem = Ok p /\ problem_reach p /\ expressible_problem p /\ p_domain p = None
  /\ show_problem p = "(define (problem p01)" +++ nl +++ "    (:domain blocks)" +++ nl
       +++ "    (:requirements :numeric-fluents :strips :typing)" +++ nl
       +++ "    (:objects a b - block t)" +++ nl
       +++ "    (:init (= (weight a) 12.5) (not (clear b)) (on a b) (ready))" +++ nl
       +++ "    (:goal (and (on b a) (not (ready)) (<= (weight b) 3)))" +++ nl
       +++ "    (:metric minimize (+ (cost) (* 2.5 (weight a))))" +++ nl +++ ")"
  /\ parse_problem (show_problem p) = Ok q /\ problem_eqb q p = true.
Proof.
  destruct ex_problem as [p|] eqn:E; [|vm_compute in E; discriminate].
  assert (R : problem_reach p) by (unfold ex_problem in E; eapply PR_new; [|exact E]; discriminate).
  assert (X : expressible_problem p /\ p_domain p = None).
  { vm_compute in E. inversion E; subst. clear. split; [|reflexivity]. constructor; cbn [p_objects p_init p_goal p_metric].
    - vm_compute. intuition discriminate.
    - intros n g H. repeat destruct H as [H|H]; try inversion H; subst; (split; [legal_tac|]); intros t T;
        inversion T; subst; legal_tac.
    - repeat apply Forall_cons; [..|apply Forall_nil].
      + apply I_atom; [legal_tac|ground_tac].
      + apply I_not; [legal_tac|ground_tac].
      + apply I_atom; [legal_tac|apply Forall_nil].
      + apply I_dec; [legal_tac|ground_tac|lia].
    - split.
      + repeat built_tac.
      + apply C_and. repeat apply Forall_cons; [..|apply Forall_nil].
        * apply C_atom. atom_tac.
        * apply C_not, C_atom. atom_tac.
        * apply C_compare; [cbn; tauto|exp_tac|exp_tac].
    - intros m [= <-]. cbn [me_opt me_expr]. split; [cbn; tauto|]. split.
      + repeat built_tac.
      + apply M_sum; [cbn; lia|]. repeat apply Forall_cons; [..|apply Forall_nil].
        * apply M_fun; [legal_tac|ground_tac].
        * apply M_product; [cbn; lia|]. repeat apply Forall_cons; [..|apply Forall_nil].
          -- apply M_num, (D_dot "2" "5" 5%Z); [apply (D_digits "2" 2%Z)|..]; discriminate || reflexivity.
          -- apply M_fun; [legal_tac|ground_tac]. }
  destruct X as [X D]. destruct (C32_problems_partial p R X D) as (q & Q & B).
  exists p, q. split; auto. split; auto. split; auto. split; auto. split; [|auto].
  vm_compute in E. inversion E; subst. vm_compute. reflexivity.
Qed.

Example C32_with_domain_ex : exists d p q q',
  mk_domain "blocks" [TYPING] (Some [("block", None)]) [] [("clear", [TVar (mkVar "x" ["block"])])] [] [] [] = Ok d
  /\ mk_problem "p01" (Some d) None None [("a", blk)] [FPred "clear" [TConst "a" blk]]
       (Some (FNot (FPred "clear" [TConst "a" blk]))) None = Ok p
  /\ problem_reach p /\ expressible_problem p /\ p_domain p = Some d
  /\ NoDupE atom_eqb (map fst (d_functions d))
  /\ parse_problem (show_problem p) = Ok q /\ set_domain q d = (q', Ok tt) /\ problem_eqb q' p = true
  /\ problem_eqb q p = false.
Proof.
  destruct (mk_domain "blocks" [TYPING] (Some [("block", None)]) [] [("clear", [TVar (mkVar "x" ["block"])])] [] [] [])
    as [d|] eqn:D; [|vm_compute in D; discriminate].
  destruct (mk_problem "p01" (Some d) None None [("a", blk)] [FPred "clear" [TConst "a" blk]]
       (Some (FNot (FPred "clear" [TConst "a" blk]))) None) as [p|] eqn:E;
    [|vm_compute in D; inversion D; subst; vm_compute in E; discriminate].
  assert (R : problem_reach p).
  { eapply PR_new; [|exact E]. intros x [= <-]. do 8 eexists. exact D. }
  assert (X : expressible_problem p /\ p_domain p = Some d /\ NoDupE atom_eqb (map fst (d_functions d))).
  { vm_compute in D. inversion D; subst. vm_compute in E. inversion E; subst. clear.
    split; [|split; [reflexivity|constructor]]. constructor; cbn [p_objects p_init p_goal p_metric].
    - vm_compute. intuition discriminate.
    - intros n g H. repeat destruct H as [H|H]; try inversion H; subst; (split; [legal_tac|]); intros t T;
        inversion T; subst; legal_tac.
    - apply Forall_cons; [|apply Forall_nil]. apply I_atom; [legal_tac|ground_tac].
    - split; [repeat built_tac|]. apply C_not, C_atom. atom_tac.
    - discriminate. }
  destruct X as (X & Y & Z). destruct (C32_with_domain_partial p d R X Y Z) as (q & q' & Q1 & Q2 & Q3).
  exists d, p, q, q'. repeat (split; [assumption||reflexivity|]).
  apply (C32_domain_refuted _ _ _ Q1). congruence.
Qed.
