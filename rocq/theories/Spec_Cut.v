(** Specification for C79: the rest of a text that is cut at some place. *)
From Coq Require Import String Ascii List.
From Verif Require Import Py Spec_Layout.
Open Scope string_scope.

(** whitespace and comments up to the end of the text; the last comment may lack its end of line *)
Definition trailing (s : string) : Prop :=
  layout s \/ exists g c, s = String.append g (String.append ";" c) /\ layout g /\ on_one_line c.
(** the rest of a comment, and then whitespace and comments *)
Definition rest_of_comment (s : string) : Prop :=
  on_one_line s \/ exists c r, s = String.append c (String newline r) /\ on_one_line c /\ trailing r.
(** [b] adds only whitespace and comments to [a] *)
Definition adds_nothing (a b : string) : Prop :=
  (~ in_comment a /\ trailing b) \/ (in_comment a /\ rest_of_comment b).
