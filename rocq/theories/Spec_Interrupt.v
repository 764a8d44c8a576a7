(** Specification for C89: calls of a parser that were interrupted.  A history is a list of texts, each with
    the number of steps after which its call was interrupted (or finished). *)
From Coq Require Import String List.
From Verif Require Import Py Core Lexer Parser Shared Spec_Parse.
Import ListNotations.
Open Scope string_scope.
Open Scope list_scope.

(** a text without a :types section *)
Definition no_types (s : string) : Prop :=
  forall n rs ty rest, ~ domain_text s n (opt_section ":requirements" rs ++ section_sx ":types" ty :: rest).
(** every call either was for a text without :types, or finished and returned a domain *)
Fixpoint harmless (h : list (string * nat)) (st : dstate) : Prop :=
  match h with
  | [] => True
  | (s, k) :: h =>
      (no_types s \/ exists st' d, interrupted k (parse_prog s) st = (st', Done (Ok d)))
      /\ harmless h (fst (interrupted k (parse_prog s) st))
  end.
(** the same exception, or problems that are == *)
Definition same_problem (r r0 : res problem) : Prop :=
  match r, r0 with
  | Ok p, Ok p0 => problem_eqb p p0 = true
  | Err e, Err e0 => e = e0
  | _, _ => False
  end.
