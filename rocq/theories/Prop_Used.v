(** C65: an accepted domain or problem only uses what is declared. *)
From Coq Require Import String List Bool.
From Verif Require Import Py Names Reqs Logic Validation Core Lexer TypedList UpdateTags Parser.
From Verif Require Import Spec Spec_Core Spec_Parse Sublist_facts Used_facts.
Import ListNotations.
Open Scope string_scope.
Open Scope list_scope.

(** false of predicates, their number of arguments, functions and variables: nothing of what this
    action uses is declared, except for [p], which has one argument *)
Definition undeclared_text : string :=
  "(define (domain d) (:requirements :typing :fluents) (:predicates (p ?x))
     (:action a :parameters () :precondition (and (p) (q ?y ?z) (p ?y ?y)) :effect (increase (f ?y) (g))))".
Definition untyped (n : string) : term := TVar (mkVar n []).
Theorem C65_refuted : exists d a,
  parse_domain_fresh undeclared_text = Ok d /\ d_actions d = [a] /\
  d_predicates d = [("p", [untyped "x"])] /\ d_functions d = [] /\ a_params a = [] /\
  a_pre a = Some (FBin OAnd [FPred "p" []; FPred "q" [untyped "y"; untyped "z"]; FPred "p" [untyped "y"; untyped "y"]]) /\
  a_eff a = Some (FBinFun BIncrease [FNumFun "f" [untyped "y"]; FNumFun "g" []]).
Proof. do 2 eexists. repeat split; vm_compute; reflexivity. Qed.
Print Assumptions C65_refuted.
(** false of problems, also when they are checked against the domain: neither [q] nor [o] nor [f] exist *)
Definition undeclared_problem : string :=
  "(define (problem pr) (:domain d) (:init (q o) (= (f o) 1)) (:goal (q o)))".
Definition small_text : string := "(define (domain d) (:predicates (p ?x)))".
Theorem C65_problem_refuted : exists d p p',
  parse_domain_fresh small_text = Ok d /\ parse_problem undeclared_problem = Ok p /\ set_domain p d = (p', Ok tt) /\
  p_objects p' = [] /\ d_constants d = [] /\ d_functions d = [] /\ d_predicates d = [("p", [untyped "x"])] /\
  In (FPred "q" [TConst "o" None]) (p_init p') /\ p_goal p' = FPred "q" [TConst "o" None].
Proof. do 3 eexists. repeat split; try (vm_compute; reflexivity). left. vm_compute. reflexivity. Qed.
Print Assumptions C65_problem_refuted.

(** what does hold, 1: the objects that a parsed domain mentions, in its actions and in its derived
    predicates, are its constants, with the declared type *)
Theorem C65_constants_partial : forall s d, parse_domain_fresh s = Ok d ->
  (forall a f n g, In a (d_actions d) -> a_pre a = Some f \/ a_eff a = Some f ->
     argument (TConst n g) f -> In (n, g) (d_constants d)) /\
  (forall x n g, In x (d_derived d) -> argument (TConst n g) (dp_cond x) -> In (n, g) (d_constants d)).
Proof.
  intros s d H. destruct (used_constants s d H) as [A B]. split; [|exact B].
  intros a f n g I F U. apply (A a n g I). exists f. auto.
Qed.
Print Assumptions C65_constants_partial.
(** 2: a derived predicate is declared, with as many arguments *)
Theorem C65_heads_partial : forall s d x, parse_domain_fresh s = Ok d -> In x (d_derived d) ->
  exists args, In (dp_name x, args) (d_predicates d) /\ length args = length (dp_terms x).
Proof. exact used_heads. Qed.
Print Assumptions C65_heads_partial.

(** an example that uses a constant in all three places, and a text that is rejected because of
    an undeclared object *)
Definition used_text (c : string) : string :=
  ("(define (domain d) (:requirements :typing) (:types t) (:constants k - t) (:predicates (p ?x) (q ?x))
     (:action a :parameters (?x) :precondition (p " ++ c ++ ") :effect (not (p k))) (:derived (q ?x) (p k)))")%string.
Example C65_ex : exists d a x, parse_domain_fresh (used_text "k") = Ok d /\ d_actions d = [a] /\ d_derived d = [x] /\
  a_pre a = Some (FPred "p" [TConst "k" (Some "t")]) /\ a_eff a = Some (FNot (FPred "p" [TConst "k" (Some "t")])) /\
  x = mkDerived "q" [untyped "x"] (FPred "p" [TConst "k" (Some "t")]) /\ d_constants d = [("k", Some "t")].
Proof. do 3 eexists. repeat split; vm_compute; reflexivity. Qed.
Example C65_rejected : parse_domain_fresh (used_text "j") = Err LarkParseError.
Proof. vm_compute. reflexivity. Qed.
