(** Model of [<], [>], [<=] and [>=] between conditions, effects and numeric expressions
    (logic/base.py, logic/effects.py, logic/functions.py, logic/predicates.py). *)
From Coq Require Import String List Bool ZArith QArith.
From Verif Require Import Py Logic.
Import ListNotations.
Open Scope string_scope.

(** Python [<] between int / float / str (functions.py:140): a str and a number cannot be
    compared.  Simplification: no nan. *)
Definition num_lt (v w : num) : res bool :=
  match v, w with
  | NStr s, NStr t => Ok (str_lt s t)
  | _, _ => match num_value v, num_value w with
            | Some x, Some y => Ok (negb (Qle_bool y x))
            | _, _ => Err TypeError
            end
  end.

(** [<] between sets of variables is proper inclusion (base.py:247, effects.py:122) *)
Definition vars_lt (vs ws : list var) : bool :=
  forallb (fun v => memb var_eqb v ws) vs && negb (set_eqb var_eqb vs ws).

(** [f < g].  predicates.py:111-115 Predicate, functions.py:107-111 NumericFunction and 136-140
    NumericValue, base.py:244-248 QuantifiedCondition (the test is [isinstance(other,
    QuantifiedCondition)], so both quantifiers), effects.py:70-74 When, 119-123 Forall.
    Tuples are compared at their first place that differs.  For another class the answer is
    NotImplemented; the reflected method of the other operand (functools.total_ordering, made from
    its [__lt__]) answers NotImplemented too, and the interpreter raises TypeError.  So does it for
    the classes without [__lt__]: And, Or, OneOf, Imply, Not, EqualTo and the arithmetic ones. *)
Fixpoint form_lt (f g : form) : res bool :=
  match f, g with
  | FPred n ts, FPred m us => Ok (atom_lt n ts m us)
  | FNumFun n ts, FNumFun m us => Ok (atom_lt n ts m us)
  | FNumVal v, FNumVal w => num_lt v w
  | FQuant _ vs c, FQuant _ ws d =>
      if set_eqb var_eqb vs ws then if form_eqb c d then Ok false else form_lt c d
      else Ok (vars_lt vs ws)
  | FWhen c e, FWhen d k =>
      if form_eqb c d then if form_eqb e k then Ok false else form_lt e k else form_lt c d
  | FForall vs e, FForall ws k =>
      if set_eqb var_eqb vs ws then if form_eqb e k then Ok false else form_lt e k
      else Ok (vars_lt vs ws)
  | _, _ => Err TypeError
  end.

(** functools.total_ordering (base.py:190, effects.py:26 and 78, functions.py:39 and 115,
    predicates.py:46) defines the others from [<] and [==]: [a > b] is [not a < b and a != b] *)
Definition form_gt (f g : form) : res bool :=
  let* b := form_lt f g in Ok (negb b && negb (form_eqb f g)).
(** functools.total_ordering: [a <= b] is [a < b or a == b] (same places) *)
Definition form_le (f g : form) : res bool :=
  let* b := form_lt f g in Ok (b || form_eqb f g).
(** functools.total_ordering: [a >= b] is [not a < b] (same places) *)
Definition form_ge (f g : form) : res bool :=
  let* b := form_lt f g in Ok (negb b).
