(** Specification for C63: flags the domain parser and the Domain constructor never look at. *)
From Coq Require Import List.
From Verif Require Import Py Reqs Logic Validation Core Spec_Grow.
Import ListNotations.

Definition unused_flag (r : req) : Prop :=
  In r [STRIPS; NEG_PRECONDITION; CONDITIONAL_EFFECTS; DERIVED_PREDICATES; OBJECT_FLUENTS].
(** two declarations that differ at most in those *)
Definition same_used_flags (rs rs' : list req) : Prop :=
  forall r, ~ unused_flag r -> (In r rs <-> In r rs').
(** both fail, with the same exception, or both succeed, with the same domain but for the
    requirements *)
Definition same_outcome (r r' : res domain) : Prop :=
  match r, r' with
  | Ok d, Ok d' => same_but_requirements d d'
  | Err e, Err e' => e = e'
  | _, _ => False
  end.
