(** Property C30: plans survive printing and parsing. *)
From Coq Require Import String List Bool.
From Verif Require Import Py Names Logic Core Lexer Show Parser.
From Verif Require Import Py_facts Names_facts Logic_facts Plan_facts.
Import ListNotations.
Open Scope string_scope.
Open Scope list_scope.

(** Parsing str(plan) gives an equal plan, whatever its length, for action names that are
    identifiers (an action name is never validated: the keywords are allowed too) and constants
    with legal names (those that the class Constant accepts). *)
Theorem C30_roundtrip : forall pl : plan,
  (forall n cs, In (n, cs) pl -> identifier n /\ forall c, In c cs -> legal_name (fst c)) ->
  exists pl', parse_plan (show_plan pl) = Ok pl' /\ plan_eqb pl' pl = true.
Proof.
  intros pl H. eexists. split; [|apply plan_eqb_untyped]. apply parse_show_plan.
  apply Forall_forall. intros [n cs] Hi. destruct (H n cs Hi) as [H1 H2]. split; auto.
  now apply Forall_forall.
Qed.
Print Assumptions C30_roundtrip.

(** and in full: the same names in the same order, the constants without their types *)
Theorem C30_exact : forall pl : plan,
  (forall n cs, In (n, cs) pl -> identifier n /\ forall c, In c cs -> legal_name (fst c)) ->
  parse_plan (show_plan pl)
  = Ok (map (fun st => (fst st, map (fun c => (fst c, None)) (snd st))) pl).
Proof.
  intros pl H. apply parse_show_plan.
  apply Forall_forall. intros [n cs] Hi. destruct (H n cs Hi) as [H1 H2]. split; auto.
  now apply Forall_forall.
Qed.
Print Assumptions C30_exact.

(** ** a plan that meets the hypotheses *)
Definition ex_plan : plan :=
  [("move", [("a", Some "block"); ("b-1", None)]); ("noop", []); ("define", [("x_1", None)])].
Example C30_ex :
  (forall n cs, In (n, cs) ex_plan -> identifier n /\ forall c, In c cs -> legal_name (fst c))
  /\ parse_plan (show_plan ex_plan)
     = Ok [("move", [("a", None); ("b-1", None)]); ("noop", []); ("define", [("x_1", None)])].
Proof.
  split; [|vm_compute; reflexivity].
  intros n cs [E|[E|[E|[]]]]; inversion E; subst; (split; [apply name_regex_spec; reflexivity|]);
    intros c Hc; apply parse_name_Ok; cbn in Hc; intuition (subst; reflexivity).
Qed.

(** The names matter: a plan whose action name is not an identifier (nothing checks it) is printed
    to a text that parses to another plan. *)
Example C30_names_matter :
  parse_plan (show_plan [("move b", [("a", None)])]) = Ok [("move", [("b", None); ("a", None)])].
Proof. vm_compute. reflexivity. Qed.
