(** Model of pddl/requirements.py. *)
From Coq Require Import String List Bool.
From Verif Require Import Py.
From Verif Require Export Req.
Import ListNotations.
Open Scope string_scope.
Open Scope list_scope.

(** requirements.py:26-41 with parser/symbols.py:80-105: the value, without the colon *)
Definition req_value (r : req) : string :=
  match r with
  | STRIPS => "strips"
  | TYPING => "typing"
  | NEG_PRECONDITION => "negative-preconditions"
  | DIS_PRECONDITION => "disjunctive-preconditions"
  | UNIVERSAL_PRECONDITION => "universal-preconditions"
  | EXISTENTIAL_PRECONDITION => "existential-preconditions"
  | QUANTIFIED_PRECONDITION => "quantified-preconditions"
  | EQUALITY => "equality"
  | CONDITIONAL_EFFECTS => "conditional-effects"
  | ADL => "adl"
  | DERIVED_PREDICATES => "derived-predicates"
  | NON_DETERMINISTIC => "non-deterministic"
  | FLUENTS => "fluents"
  | OBJECT_FLUENTS => "object-fluents"
  | NUMERIC_FLUENTS => "numeric-fluents"
  | ACTION_COSTS => "action-costs"
  end.

(** requirements.py:26-41 the members in order of definition *)
Definition all_reqs : list req :=
  [STRIPS; TYPING; NEG_PRECONDITION; DIS_PRECONDITION; UNIVERSAL_PRECONDITION;
   EXISTENTIAL_PRECONDITION; QUANTIFIED_PRECONDITION; EQUALITY; CONDITIONAL_EFFECTS; ADL;
   DERIVED_PREDICATES; NON_DETERMINISTIC; FLUENTS; OBJECT_FLUENTS; NUMERIC_FLUENTS;
   ACTION_COSTS].

(** Enum members are singletons: [==] is identity *)
Definition req_eqb (a b : req) : bool := String.eqb (req_value a) (req_value b).

(** requirements.py:71-73 __str__ *)
Definition req_str (r : req) : string := ":" +++ req_value r.

(** requirements.py:79-84 __lt__ ([<=] on the values) and the operators derived from it by
    functools.total_ordering (from __lt__: [a > b] is [not (a < b) and a != b],
    [a <= b] is [a < b or a == b], [a >= b] is [not a < b]) *)
Definition req_lt (a b : req) : bool :=
  match String.compare (req_value a) (req_value b) with Gt => false | _ => true end.
(** requirements.py:22 @functools.total_ordering: [a > b] *)
Definition req_gt (a b : req) : bool := negb (req_lt a b) && negb (req_eqb a b).
(** requirements.py:22 @functools.total_ordering: [a <= b] *)
Definition req_le (a b : req) : bool := req_lt a b || req_eqb a b.
(** requirements.py:22 @functools.total_ordering: [a >= b] *)
Definition req_ge (a b : req) : bool := negb (req_lt a b).

(** [r in l], as in requirements.py:92-99 *)
Definition has (r : req) (l : list req) : bool := memb req_eqb r l.

(** requirements.py:43-49 quantified_precondition_requirements *)
Definition quantified_precondition_requirements : list req :=
  [UNIVERSAL_PRECONDITION; EXISTENTIAL_PRECONDITION].
(** requirements.py:51-61 adl_requirements *)
Definition adl_requirements : list req :=
  [STRIPS; TYPING; NEG_PRECONDITION; DIS_PRECONDITION; EQUALITY; CONDITIONAL_EFFECTS]
    ++ quantified_precondition_requirements.
(** requirements.py:63-69 fluents_requirements *)
Definition fluents_requirements : list req := [OBJECT_FLUENTS; NUMERIC_FLUENTS].

(** requirements.py:87-100 _extend_domain_requirements *)
Definition extend_reqs (rs : list req) : list req :=
  let e0 := dedup req_eqb rs in
  let e1 := if has QUANTIFIED_PRECONDITION rs
            then union req_eqb e0 quantified_precondition_requirements else e0 in
  let e2 := if has ADL rs then union req_eqb e1 adl_requirements else e1 in
  if has FLUENTS rs then union req_eqb e2 fluents_requirements else e2.

(** [Requirements(value)]: ValueError for an unknown value *)
Definition req_of_value (s : string) : res req :=
  match find (fun r => String.eqb (req_value r) s) all_reqs with
  | Some r => Ok r
  | None => Err ValueError
  end.
