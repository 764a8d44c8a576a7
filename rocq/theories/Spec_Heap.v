(** Specification for C67: what a program that uses domains, problems and plans writes to. *)
From Coq Require Import String List.
From Verif Require Import Py Core Heap.
Import ListNotations.

(** the program changes that container in place *)
Definition writes (ops : list op) (a : nat) : Prop := exists v, In (OWrite a v) ops.
(** states that some program reaches *)
Definition reachable (st : store) : Prop := exists ops, st = program ops empty_store.
(** the dicts that [d.types] and [d.functions] return, the set that [p.requirements] returns when
    the problem has no domain, and the domain of a problem *)
Definition types_of (st : store) (i : nat) : option nat := option_map o_types (nth_error (doms st) i).
Definition functions_of (st : store) (i : nat) : option nat := option_map o_funs (nth_error (doms st) i).
Definition requirements_of (st : store) (i : nat) : option nat :=
  match nth_error (probs st) i with Some q => q_reqs q | None => None end.
Definition domain_of (st : store) (i : nat) : option nat :=
  match nth_error (probs st) i with Some q => q_dom q | None => None end.
(** the list of a plan, and the lists of arguments of its steps *)
Definition steps_of (st : store) (i : nat) : option nat := nth_error (plans st) i.
Definition arguments_of (st : store) (i a : nat) : Prop :=
  exists s l n, steps_of st i = Some s /\ steps_at (cells st) s = Some l /\ In (n, a) l.
(** the program touches neither the types nor the functions of domain i *)
Definition spares (ops : list op) (st : store) (i : nat) : Prop :=
  (forall a, types_of st i = Some a -> ~ writes ops a) /\ (forall a, functions_of st i = Some a -> ~ writes ops a).
