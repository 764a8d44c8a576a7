(** Specification: which requirements are in force when some are declared. *)
From Coq Require Import List.
From Verif Require Import Reqs.
Import ListNotations.

(** what each umbrella requirement implies *)
Definition implied_by (r : req) : list req :=
  match r with
  | QUANTIFIED_PRECONDITION => [UNIVERSAL_PRECONDITION; EXISTENTIAL_PRECONDITION]
  | ADL => [STRIPS; TYPING; NEG_PRECONDITION; DIS_PRECONDITION; EQUALITY; CONDITIONAL_EFFECTS;
            UNIVERSAL_PRECONDITION; EXISTENTIAL_PRECONDITION]
  | FLUENTS => [OBJECT_FLUENTS; NUMERIC_FLUENTS]
  | _ => []
  end.

(** declared, or implied by one that is declared *)
Definition in_force (declared : list req) (r : req) : Prop :=
  In r declared \/ exists q, In q declared /\ In r (implied_by q).
