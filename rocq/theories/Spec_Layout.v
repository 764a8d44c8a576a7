(** Specification: layout of a PDDL text (C36, C42).  Nothing here models code. *)
From Coq Require Import String Ascii List.
From Verif Require Import Py.
Import ListNotations.
Open Scope string_scope.
Open Scope list_scope.

Definition newline : ascii := ascii_of_nat 10.
Fixpoint on_one_line (s : string) : Prop :=
  match s with "" => True | String c r => c <> newline /\ on_one_line r end.

(** whitespace, and comments up to and including the end of the line *)
Inductive layout : string -> Prop :=
| lay_nil : layout ""
| lay_space c r : is_space c = true -> layout r -> layout (String c r)
| lay_comment b r : on_one_line b -> layout r -> layout (";" +++ b +++ String newline r).

(** the text ends inside a comment *)
Definition in_comment (s : string) : Prop :=
  exists a b, s = a +++ ";" +++ b /\ on_one_line b.

(** whitespace only *)
Fixpoint white (s : string) : Prop :=
  match s with "" => True | String c r => is_space c = true /\ white r end.
Fixpoint without (c : ascii) (s : string) : Prop :=
  match s with "" => True | String d r => d <> c /\ without c r end.
