(** The members of Requirements (pddl/requirements.py), apart from Reqs.v because an exception
    carries one of them. *)

(** requirements.py:22-41 Requirements *)
Inductive req : Type :=
| STRIPS | TYPING | NEG_PRECONDITION | DIS_PRECONDITION | UNIVERSAL_PRECONDITION
| EXISTENTIAL_PRECONDITION | QUANTIFIED_PRECONDITION | EQUALITY | CONDITIONAL_EFFECTS | ADL
| DERIVED_PREDICATES | NON_DETERMINISTIC | FLUENTS | OBJECT_FLUENTS | NUMERIC_FLUENTS
| ACTION_COSTS.
