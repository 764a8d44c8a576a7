(** Specification for C77: what it means to list the same things in another order.
    Nothing here models code. *)
From Coq Require Import String List Bool Permutation.
From Verif Require Import Py Logic Lexer Spec_Parse Spec_Declared.
Import ListNotations.
Open Scope string_scope.
Open Scope list_scope.

(** the same things, in any order, any of them any number of times *)
Definition same_items {A} (l l' : list A) : Prop := forall x, In x l' <-> In x l.
(** no two different things of the list are [==] *)
Definition told_apart {A} (eqb : A -> A -> bool) (l : list A) : Prop :=
  forall x y, In x l -> In y l -> eqb x y = true -> x = y.

(** two optional sections: both missing, or both there and related *)
Definition both {A} (R : A -> A -> Prop) (o o' : option A) : Prop :=
  match o, o' with Some x, Some y => R x y | None, None => True | _, _ => False end.

(** typed lists of names: the same names with the same types, in any order and grouping, as
    [a b - t c - u] and [c - u b - t a - t] *)
Definition same_listing (l l' : list sexp) : Prop :=
  exists groups tail groups' tail', written_names l groups tail /\ written_names l' groups' tail'
    /\ Permutation (assigned groups tail) (assigned groups' tail').
(** the same for the functions of a domain, as [(f ?x) (g) - number (h)] *)
Definition same_functions (l l' : list sexp) : Prop :=
  exists out out', written_functions l out /\ written_functions l' out' /\ Permutation out out'.
(** no predicate is declared twice in different ways *)
Definition declared_once (l : list sexp) : Prop :=
  forall p vs ws, In (SList (name_sx p :: vs)) l -> In (SList (name_sx p :: ws)) l -> vs = ws.
(** the same predicates *)
Definition same_predicates (l l' : list sexp) : Prop := same_items l l' /\ declared_once l.
