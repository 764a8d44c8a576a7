(** Specification: the types of the arguments of a derived predicate (C53).  Nothing here models code. *)
From Coq Require Import String List Bool.
From Verif Require Import Py Names Logic Validation Spec_Parse.
Import ListNotations.
Open Scope string_scope.
Open Scope list_scope.

(** the argument [u] of a derived predicate, given the variable [v] written in its head and the
    variable [w] at the same place of the declaration: its name is the one written; it has the types
    written or, when none are written, the declared ones; and if the declaration has types, each
    written type is one of them or directly below one of them *)
Definition head_arg_of (types : list (string * option string)) (vw : var * var) (u : var) : Prop :=
  v_name u = v_name (fst vw)
  /\ (v_tags (fst vw) = [] -> same_set (v_tags u) (v_tags (snd vw)))
  /\ (v_tags (fst vw) <> [] ->
      same_set (v_tags u) (v_tags (fst vw))
      /\ (v_tags (snd vw) = [] \/ forall g, In g (v_tags (fst vw)) ->
            In g (v_tags (snd vw)) \/ exists p, In (g, Some p) types /\ In p (v_tags (snd vw)))).
(** all arguments *)
Definition head_of (types : list (string * option string)) (written declared args : list var) : Prop :=
  length written = length declared /\ Forall2 (head_arg_of types) (combine written declared) args.
