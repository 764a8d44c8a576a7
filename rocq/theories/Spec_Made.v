(** Specification for C80 and C81: what the constructor of a problem and the calls of predicates and
    functions accept. *)
From Coq Require Import String List Bool.
From Verif Require Import Py Names Reqs Logic Validation Core Sem Spec Spec_Core.
Import ListNotations.
Open Scope string_scope.
Open Scope list_scope.

(** an atom is a predicate, an equation, a function, a number, or a comparison, assignment or sum of such *)
Inductive atomic : form -> Prop :=
| At_pred n ts : atomic (FPred n ts)
| At_eq t u : atomic (FEq t u)
| At_function n ts : atomic (FNumFun n ts)
| At_number v : atomic (FNumVal v)
| At_numeric k ops : atomic (FBinFun k ops).
(** a literal is an atom or the negation of one *)
Definition literal (f : form) : Prop := atomic f \/ exists g, f = FNot g /\ atomic g.

(** the goal that is not given is the empty conjunction *)
Definition goal_or_true (g : option form) : form := match g with Some g => g | None => FBin OAnd [] end.

(** terms of the same types, one by one *)
Definition same_types (us ts : list term) : Prop :=
  Forall2 (fun u t => forall g, In g (t_tags u) <-> In g (t_tags t)) us ts.
(** distinct variables *)
Definition distinct_variables (us : list term) : Prop := exists vs, us = map TVar vs /\ NoDup (map v_name vs).
