(** C87: what a parser returns has at most as many parts as the text has characters. *)
From Coq Require Import String List Arith.
From Verif Require Import Py Names Reqs Logic Validation Core Lexer Parser Spec_Size Spec_Depth Size_facts Depth_facts.
Import ListNotations.
Open Scope string_scope.
Open Scope list_scope.

(** whatever the parser was used for before *)
Theorem C87_domain s st st' d : parse_domain s st = (st', Ok d) -> size_domain d <= String.length s.
Proof. apply domain_size. Qed.
Print Assumptions C87_domain.
Theorem C87_problem s p : parse_problem s = Ok p -> size_problem p <= String.length s.
Proof. apply problem_size. Qed.
Print Assumptions C87_problem.
Theorem C87_plan s pl : parse_plan s = Ok pl -> size_plan pl <= String.length s.
Proof. apply plan_size. Qed.
Print Assumptions C87_plan.

(** operators are nested no deeper than parentheses: recursive methods on a parsed object recurse no
    deeper than its text is nested *)
Theorem C87_domain_nesting s st st' d f : parse_domain s st = (st', Ok d) -> In f (domain_formulas d) -> depth f + 2 <= nesting s.
Proof. apply domain_depth. Qed.
Print Assumptions C87_domain_nesting.
Theorem C87_problem_nesting s p f : parse_problem s = Ok p -> In f (problem_formulas p) -> depth f + 2 <= nesting s.
Proof. apply problem_depth. Qed.
Print Assumptions C87_problem_nesting.

Definition small_domain : string :=
  "(define (domain d) (:requirements :typing) (:types t) (:predicates (p ?x - t) (q)) (:action a :parameters (?x - t) :precondition (and (p ?x) (not (q))) :effect (q)))".
Example C87_ex :
  match parse_domain_fresh small_domain with Ok d => Some (size_domain d) | Err _ => None end = Some 14
  /\ match parse_problem "(define (problem p) (:domain d) (:objects a - t) (:init (p a)) (:goal (and (q) (p a))))"
     with Ok p => Some (size_problem p) | Err _ => None end = Some 8
  /\ match parse_plan "(a x) (b)" with Ok pl => Some (size_plan pl) | Err _ => None end = Some 3.
Proof. repeat split; vm_compute; reflexivity. Qed.
(** the two bounds on this domain: operators nested 2 deep, parentheses 5 deep *)
Example C87_nesting_ex :
  match parse_domain_fresh small_domain with Ok d => Some (map depth (domain_formulas d)) | Err _ => None end = Some [2; 0]
  /\ nesting small_domain = 5 /\ nesting (small_domain ++ "; ((((((") = 5.
Proof. repeat split; vm_compute; reflexivity. Qed.
