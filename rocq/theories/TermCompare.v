(** Model of [>], [<=] and [>=] between terms (logic/terms.py) and between derived predicates
    (logic/predicates.py), which functools.total_ordering makes from [__lt__] and [==]. *)
From Coq Require Import String List Bool.
From Verif Require Import Py Logic.

(** terms.py:32 @functools.total_ordering with terms.py:67-73 Term.__lt__, inherited by Constant and
    Variable: [a > b] is [not a < b and a != b].  Simplification: both operands are terms (an operand of
    another class makes every comparison raise TypeError). *)
Definition term_gt (a b : term) : bool := negb (term_lt a b) && negb (term_eqb a b).
(** terms.py:32: [a <= b] is [a < b or a == b] *)
Definition term_le (a b : term) : bool := term_lt a b || term_eqb a b.
(** terms.py:32: [a >= b] is [not a < b] *)
Definition term_ge (a b : term) : bool := negb (term_lt a b).

(** predicates.py:174 @functools.total_ordering with predicates.py:225-232 DerivedPredicate.__lt__: [a > b] *)
Definition derived_gt (a b : derived) : res bool :=
  let* r := derived_lt a b in Ok (negb r && negb (derived_eqb a b)).
(** predicates.py:174: [a <= b] *)
Definition derived_le (a b : derived) : res bool :=
  let* r := derived_lt a b in Ok (r || derived_eqb a b).
(** predicates.py:174: [a >= b] *)
Definition derived_ge (a b : derived) : res bool :=
  let* r := derived_lt a b in Ok (negb r).
