(** Specification for C66: a step of a plan as a group of names.  Nothing here models code. *)
From Coq Require Import String List.
From Verif Require Import Logic Validation Core Lexer Spec_Parse.
Import ListNotations.
Open Scope list_scope.

(** [(name object ..)] *)
Definition step_sx (st : string * list const) : sexp := SList (name_sx (fst st) :: map (fun c => name_sx (fst c)) (snd st)).
