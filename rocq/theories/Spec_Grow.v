(** Specification for C62: two domains that differ in nothing but their requirements. *)
From Coq Require Import List.
From Verif Require Import Reqs Logic Validation Core.

Definition same_but_requirements (d d' : domain) : Prop :=
  d_name d' = d_name d /\ d_types d' = d_types d /\ d_constants d' = d_constants d /\
  d_predicates d' = d_predicates d /\ d_derived d' = d_derived d /\
  d_functions d' = d_functions d /\ d_actions d' = d_actions d.
