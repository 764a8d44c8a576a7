(** C58, C59: the parsers accept only texts of the grammar, and which texts of the grammar they do not
    reject as syntax errors. *)
From Coq Require Import String List Bool.
From Verif Require Import Py Logic Core Lexer Parser Spec_Grammar Words_facts Grammar_facts GrammarText_facts GrammarAll_facts Recognize_facts.
Import ListNotations.
Open Scope string_scope.
Open Scope list_scope.

(** ** what is accepted is derived from the grammar *)
Theorem C58_domain : forall s st st' d, parse_domain s st = (st', Ok d) -> in_grammar "domain" s.
Proof.
  intros s st st' d H. unfold parse_domain in H. destruct (read_text s) as [l|] eqn:E; [|discriminate].
  apply (text_rule _ _ _ E). now apply (domain_rule_rule _ _ _ _ H).
Qed.
Print Assumptions C58_domain.
Theorem C58_problem : forall objs s p, parse_problem_from objs s = Ok p -> in_grammar "problem" s.
Proof.
  intros objs s p H. unfold parse_problem_from in H. destruct (read_text s) as [l|] eqn:E; [|discriminate].
  apply (text_rule _ _ _ E). now apply (problem_rule_rule _ _ _ H).
Qed.
Print Assumptions C58_problem.
Theorem C58_plan : forall s p, parse_plan s = Ok p -> in_grammar "plan" s.
Proof.
  intros s p H. unfold parse_plan in H. destruct (read_text s) as [l|] eqn:E; [|discriminate].
  apply (text_rule _ _ _ E). now apply (plan_rule _ _ H).
Qed.
Print Assumptions C58_plan.

(** ** the converse: a text of the grammar is never a syntax error *)

(** true of plans *)
Theorem C59_plan : forall s, in_grammar "plan" s -> parse_plan s <> Err LarkSyntaxError.
Proof. exact plan_all. Qed.
Print Assumptions C59_plan.
(** false of domains and problems: a subtraction, or an equation that begins with the bare name of a
    function *)
Definition subtraction : string :=
  "(define (domain d) (:functions (f) (g)) (:action a :parameters ()
     :precondition (> (- (f) (g)) 0) :effect (and)))".
Definition equation : string := "(define (problem p) (:domain d) (:init) (:goal (= f 3)))".
Theorem C59_refuted :
  (in_grammar "domain" subtraction /\ forall st, snd (parse_domain subtraction st) = Err LarkSyntaxError)
  /\ (in_grammar "problem" equation /\ forall objs, parse_problem_from objs equation = Err LarkSyntaxError).
Proof.
  split; split.
  - in_grammar_by 60.
  - intros st. unfold parse_domain. assert (E : exists l, read_text subtraction = Some l) by (eexists; vm_compute; reflexivity).
    destruct E as [l E]. rewrite E. vm_compute in E. injection E as <-. reflexivity.
  - in_grammar_by 60.
  - intros objs. unfold parse_problem_from. assert (E : exists l, read_text equation = Some l) by (eexists; vm_compute; reflexivity).
    destruct E as [l E]. rewrite E. vm_compute in E. injection E as <-. reflexivity.
Qed.
Print Assumptions C59_refuted.
(** true without them, and when the words that begin a group of their own are not used as names:
    such a text is not a syntax error, whatever was parsed before *)
Theorem C59_domain_partial : forall s, in_plain_grammar "domain" s ->
  forall st, snd (parse_domain s st) <> Err LarkSyntaxError.
Proof. exact domain_text_ns. Qed.
Print Assumptions C59_domain_partial.
Theorem C59_problem_partial : forall s, in_plain_grammar "problem" s ->
  forall objs, parse_problem_from objs s <> Err LarkSyntaxError.
Proof. exact problem_text_ns. Qed.
Print Assumptions C59_problem_partial.

(** ** examples *)
Definition robots : string :=
  "(define (domain robots) ; a domain
     (:requirements :typing :fluents :action-costs :conditional-effects :adl)
     (:types robot - agent agent room - object box)
     (:constants home - room r2 d2 - robot)
     (:predicates (at ?x - (either robot box) ?r - room) (free ?x))
     (:functions (load ?x - robot) - number (total-cost))
     (:action move :parameters (?x - robot ?a ?b - room)
       :precondition (and (at ?x ?a) (not (= ?a ?b)) (>= (load ?x) (+ 1 (load r2) 3))
                          (forall (?y - box) (imply (at ?y ?a) (exists (?z) (free ?z)))))
       :effect (and (at ?x ?b) (not (at ?x ?a)) (increase (total-cost) (* 2 (load ?x)))
                    (forall (?y - box) (when (free ?y) (and (at ?y ?b) (not (at ?y ?a)))))))
     (:action wait :parameters () :precondition () :effect ())
     (:derived (free ?x) (or (at ?x home) (= (load r2) 0))))".
Example robots_plain : in_plain_grammar "domain" robots.
Proof. in_plain_by 100. Qed.
Example robots_read : exists d, snd (parse_domain robots init_dstate) = Ok d /\ length (d_actions d) = 2.
Proof. eexists. split; vm_compute; reflexivity. Qed.
Definition trip : string :=
  "(define (problem trip) (:domain robots) (:requirements :typing)
     (:objects a b - room c - box)
     (:init (at r2 a) (not (free r2)) (= (load r2) 4) (= total-cost 0))
     (:goal (and (at r2 b) (< (load r2) 5)))
     (:metric minimize (+ (total-cost) 1 (* 2 total-cost))))".
Example trip_plain : in_plain_grammar "problem" trip.
Proof. in_plain_by 100. Qed.
Example trip_read : exists p, parse_problem trip = Ok p /\ length (p_init p) = 4.
Proof. eexists. split; vm_compute; reflexivity. Qed.
Example plan_read : in_grammar "plan" "(move r2 a b) (wait)" /\ exists p, parse_plan "(move r2 a b) (wait)" = Ok p /\ length p = 2.
Proof. split; [in_grammar_by 20|]. eexists. split; vm_compute; reflexivity. Qed.
