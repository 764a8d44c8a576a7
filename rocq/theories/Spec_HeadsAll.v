(** Specification: the types of the arguments of a derived predicate, also when variables are
    repeated in its head (C53).  Nothing here models code. *)
From Coq Require Import String List Bool.
From Verif Require Import Py Names Logic Validation Spec_Parse Spec_Heads.
Import ListNotations.
Open Scope string_scope.
Open Scope list_scope.

(** the types that one place of the head gives to its variable: those written or, when none are
    written, those declared for the place *)
Definition place_types (vw : var * var) : list string :=
  match v_tags (fst vw) with [] => v_tags (snd vw) | gs => gs end.
(** the last of the places that give types to the variable [n] gives it the types [gs] *)
Definition last_types (places : list (var * var)) (n : string) (gs : list string) : Prop :=
  exists before vw after, places = before ++ vw :: after /\ v_name (fst vw) = n
    /\ place_types vw <> [] /\ same_set gs (place_types vw)
    /\ forall other, In other after -> v_name (fst other) = n -> place_types other = [].
(** no place gives types to it *)
Definition no_types (places : list (var * var)) (n : string) : Prop :=
  forall vw, In vw places -> v_name (fst vw) = n -> place_types vw = [].
(** written types agree with the declaration: each is declared or directly below a declared one *)
Definition agrees_with_declaration (types : list (string * option string)) (vw : var * var) : Prop :=
  v_tags (fst vw) = [] \/ v_tags (snd vw) = [] \/ forall g, In g (v_tags (fst vw)) ->
    In g (v_tags (snd vw)) \/ exists p, In (g, Some p) types /\ In p (v_tags (snd vw)).
(** all arguments of a head *)
Definition head_in_general (types : list (string * option string)) (written declared args : list var) : Prop :=
  length written = length declared /\ map v_name args = map v_name written
  /\ (forall vw, In vw (combine written declared) -> agrees_with_declaration types vw)
  /\ forall u, In u args -> last_types (combine written declared) (v_name u) (v_tags u)
       \/ no_types (combine written declared) (v_name u) /\ v_tags u = [].
