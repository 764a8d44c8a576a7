(** Names that differ in case only (C55, C20). *)
From Coq Require Import String Ascii List.
Open Scope string_scope.

Definition capitals : string := "ABCDEFGHIJKLMNOPQRSTUVWXYZ".
Definition small_letters : string := "abcdefghijklmnopqrstuvwxyz".
(** the same character, or the capital and the small form of one letter *)
Definition same_letter (c c' : ascii) : Prop :=
  c = c' \/ exists i, (get i capitals = Some c /\ get i small_letters = Some c')
                   \/ (get i capitals = Some c' /\ get i small_letters = Some c).
Definition same_but_case (s s' : string) : Prop :=
  Forall2 same_letter (list_ascii_of_string s) (list_ascii_of_string s').
