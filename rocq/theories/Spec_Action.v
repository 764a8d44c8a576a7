(** Specification: the parameters of a written action. *)
From Coq Require Import String List Bool.
From Verif Require Import Logic Spec_Parse.
Import ListNotations.
Open Scope string_scope.
Open Scope list_scope.

(** the strings of a list in order of first occurrence *)
Fixpoint firsts (l : list string) : list string :=
  match l with
  | [] => []
  | x :: xs => x :: filter (fun y => negb (String.eqb y x)) (firsts xs)
  end.

(** [ts] are the variables named in [l], in order of first occurrence, each with the types it is
    given in [l] *)
Definition parameters_of (l : list (string * list string)) (ts : list term) : Prop :=
  map t_name ts = firsts (map fst l)
  /\ forall t, In t ts -> exists v, t = TVar v
       /\ forall gs, In (v_name v, gs) l -> same_set gs (v_tags v).
