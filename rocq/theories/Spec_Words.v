(** Specification for C82: the words of a text, separated by whitespace. *)
From Coq Require Import String Ascii List.
From Verif Require Import Py.
Import ListNotations.
Open Scope string_scope.

(** every character is (not) whitespace *)
Fixpoint blank_text (s : string) : Prop := match s with "" => True | String c r => is_space c = true /\ blank_text r end.
Fixpoint solid_text (s : string) : Prop := match s with "" => True | String c r => is_space c = false /\ solid_text r end.
(** the words of a text are its parts without whitespace, with whitespace between them *)
Inductive words_of : list string -> string -> Prop :=
| Words_none b : blank_text b -> words_of [] b
| Words_last b w : blank_text b -> w <> "" -> solid_text w -> words_of [w] (b +++ w)
| Words_more b w c r ws : blank_text b -> w <> "" -> solid_text w -> is_space c = true -> words_of ws r -> words_of (w :: ws) (b +++ w +++ String c r).
