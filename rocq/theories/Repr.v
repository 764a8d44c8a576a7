(** Model of [__repr__] of pddl/logic/*.py, pddl/action.py and pddl/requirements.py. *)
From Coq Require Import String List.
From Verif Require Import Py Req Names Reqs Logic Validation Core Show.
Import ListNotations.
Open Scope string_scope.
Open Scope list_scope.

(** ** Python's repr of containers *)

(** repr of a list *)
Definition repr_list (l : list string) : string := "[" +++ join ", " l +++ "]".
(** repr of a tuple: one element is followed by a comma *)
Definition repr_tuple (l : list string) : string :=
  match l with [x] => "(" +++ x +++ ",)" | _ => "(" +++ join ", " l +++ ")" end.
(** repr (and str) of a frozenset in iteration order; helpers/base.py:63-72 ensure_set makes one *)
Definition repr_frozenset (l : list string) : string :=
  match l with [] => "frozenset()" | _ => "frozenset({" +++ join ", " l +++ "})" end.

(** ** Terms and formulas *)

(** terms.py:131-133 *)
Definition repr_var (v : var) : string := "Variable(" +++ v_name v +++ ")".
(** terms.py:100-102, 131-133 *)
Definition repr_term (t : term) : string :=
  match t with TConst n _ => "Constant(" +++ n +++ ")" | TVar v => repr_var v end.
(** predicates.py:95-97, functions.py:91-93 after the class name: the terms are printed with str *)
Definition repr_atom (n : string) (ts : list term) : string :=
  "(" +++ n +++ ", " +++ join ", " (map show_term ts) +++ ")".

(** type(self).__name__ of functions.py:252-405 *)
Definition bfun_class (k : bfun) : string :=
  match k with
  | BEqual => "EqualTo" | BLess => "LesserThan" | BLessEq => "LesserEqualThan"
  | BGreater => "GreaterThan" | BGreaterEq => "GreaterEqualThan"
  | BAssign => "Assign" | BScaleUp => "ScaleUp" | BScaleDown => "ScaleDown"
  | BIncrease => "Increase" | BDecrease => "Decrease"
  | BMinus => "Minus" | BPlus => "Plus" | BTimes => "Times" | BDivide => "Divide"
  end.
(** type(self).__name__ of base.py:155-180 *)
Definition bop_class (k : bop) : string :=
  match k with OAnd => "And" | OOr => "Or" | OOneOf => "OneOf" | OImply => "Imply" end.
(** type(self).__name__ of base.py:251-260 *)
Definition quant_class (q : quant) : string :=
  match q with QForall => "ForallCondition" | QExists => "ExistsCondition" end.

(** predicates.py:95-97, 168-170; functions.py:91-93, 179-181; base.py:77-79, 116-118, 228-230;
    effects.py:54-56, 103-105.  NumericValue (functions.py:116-148) has no [__repr__], so it is
    object's, which prints the address of the object: [addr] gives the address of the object at a
    position (the numbers of the operands on the way to it). *)
Fixpoint repr_form (addr : list nat -> string) (f : form) : string :=
  match f with
  | FPred n ts => "Predicate" +++ repr_atom n ts
  | FEq l r => "EqualTo(" +++ repr_term l +++ ", " +++ repr_term r +++ ")"
  | FNumFun n ts => "NumericFunction" +++ repr_atom n ts
  | FNumVal _ => "<pddl.logic.functions.NumericValue object at " +++ addr [] +++ ">"
  | FBinFun k ops =>
      bfun_class k +++ "(" +++
      repr_tuple ((fix go (i : nat) (l : list form) : list string :=
         match l with [] => [] | g :: r => repr_form (fun p => addr (i :: p)) g :: go (S i) r end) 0 ops)
      +++ ")"
  | FBin k ops =>
      bop_class k +++ "(" +++
      repr_list ((fix go (i : nat) (l : list form) : list string :=
         match l with [] => [] | g :: r => repr_form (fun p => addr (i :: p)) g :: go (S i) r end) 0 ops)
      +++ ")"
  | FNot g => "Not(" +++ repr_form (fun p => addr (0 :: p)) g +++ ")"
  | FQuant q vs c => quant_class q +++ "(" +++ repr_frozenset (map repr_var vs) +++ ", " +++ show_form c +++ ")"
  | FWhen c e => "When(" +++ show_form c +++ ", " +++ show_form e +++ ")"
  | FForall vs e => "Forall(" +++ repr_frozenset (map repr_var vs) +++ ", " +++ show_form e +++ ")"
  end.

(** predicates.py:213-215 DerivedPredicate.__repr__; the predicate is operand 0, the condition 1 *)
Definition repr_derived (addr : list nat -> string) (d : derived) : string :=
  "DerivedPredicate(" +++ "Predicate" +++ repr_atom (dp_name d) (dp_terms d) +++ ", "
  +++ repr_form (fun p => addr (1 :: p)) (dp_cond d) +++ ")".
(** functions.py:235-237 Metric.__repr__ *)
Definition repr_metric (m : metric) : string :=
  "Metric(" +++ show_form (me_expr m) +++ ", " +++ me_opt m +++ ")".

(** str of a formula that may be None *)
Definition show_opt_form (o : option form) : string :=
  match o with Some f => show_form f | None => "None" end.
(** action.py:122-127 Action.__repr__ *)
Definition repr_action (a : action) : string :=
  "Action(" +++ a_name a +++ ", parameters=" +++ join ", " (map show_term (a_params a))
  +++ ", precondition=" +++ show_opt_form (a_pre a) +++ ", effect=" +++ show_opt_form (a_eff a) +++ ")".

(** requirements.py:75-77, with the names of the members, requirements.py:26-41 *)
Definition repr_req (r : req) : string :=
  "Requirements." +++
  match r with
  | STRIPS => "STRIPS" | TYPING => "TYPING" | NEG_PRECONDITION => "NEG_PRECONDITION"
  | DIS_PRECONDITION => "DIS_PRECONDITION" | UNIVERSAL_PRECONDITION => "UNIVERSAL_PRECONDITION"
  | EXISTENTIAL_PRECONDITION => "EXISTENTIAL_PRECONDITION"
  | QUANTIFIED_PRECONDITION => "QUANTIFIED_PRECONDITION" | EQUALITY => "EQUALITY"
  | CONDITIONAL_EFFECTS => "CONDITIONAL_EFFECTS" | ADL => "ADL"
  | DERIVED_PREDICATES => "DERIVED_PREDICATES" | NON_DETERMINISTIC => "NON_DETERMINISTIC"
  | FLUENTS => "FLUENTS" | OBJECT_FLUENTS => "OBJECT_FLUENTS" | NUMERIC_FLUENTS => "NUMERIC_FLUENTS"
  | ACTION_COSTS => "ACTION_COSTS"
  end.
