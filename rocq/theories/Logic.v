(** Model of pddl/logic/: terms.py, predicates.py, base.py, functions.py, effects.py,
    helpers.py.  Printing ([__str__]) is in Show.v. *)
From Coq Require Import String Ascii List Bool NArith ZArith QArith Permutation.
From Verif Require Import Py Names.
Import ListNotations.
Open Scope string_scope.
Open Scope list_scope.
Close Scope Q_scope.

(** * Terms (logic/terms.py) *)

(** Variable (terms.py:113-149): [v_tags] is the frozenset [_type_tags] in iteration order *)
Record var : Type := mkVar { v_name : string; v_tags : list string }.

(** Term (terms.py:31-73) and its two concrete classes; a Constant (terms.py:77-110) has at
    most one type tag *)
Inductive term : Type :=
| TConst (n : string) (tag : option string)
| TVar (v : var).

(** terms.py:49-52 *)
Definition t_name (t : term) : string :=
  match t with TConst n _ => n | TVar v => v_name v end.
(** terms.py:54-57 *)
Definition t_tags (t : term) : list string :=
  match t with
  | TConst _ None => []
  | TConst _ (Some g) => [g]
  | TVar v => v_tags v
  end.

(** type(self).__name__ *)
Definition t_class (t : term) : string :=
  match t with TConst _ _ => "Constant" | TVar _ => "Variable" end.

(** terms.py:135-141 Variable.__eq__ *)
Definition var_eqb (a b : var) : bool :=
  String.eqb (v_name a) (v_name b) && set_eqb String.eqb (v_tags a) (v_tags b).

(** terms.py:104-106 Constant.__eq__ (ignores the type tag), 135-141 Variable.__eq__ *)
Definition term_eqb (a b : term) : bool :=
  match a, b with
  | TConst n _, TConst m _ => String.eqb n m
  | TVar v, TVar w => var_eqb v w
  | _, _ => false
  end.

(** terms.py:67-73 Term.__lt__: (class name, name, sorted tags) compared lexicographically *)
Definition term_lt (a b : term) : bool :=
  if String.eqb (t_class a) (t_class b) then
    if String.eqb (t_name a) (t_name b) then
      seq_lt String.eqb str_lt (sort_str (t_tags a)) (sort_str (t_tags b))
    else str_lt (t_name a) (t_name b)
  else str_lt (t_class a) (t_class b).

(** A collection argument: None, a list/tuple, or a set/frozenset *)
Inductive coll (A : Type) : Type :=
| CNone | CList (l : list A) | CSet (l : list A).
Arguments CNone {A}.
Arguments CList {A} l.
Arguments CSet {A} l.

(** helpers/base.py:63-72 ensure_set, 91-100 ensure_sequence: None is the empty collection *)
Definition coll_items {A} (c : coll A) : list A :=
  match c with CNone => [] | CList l => l | CSet l => l end.

(** helpers/base.py:75-88 check_no_duplicates *)
Fixpoint no_dup_from (seen l : list string) : res unit :=
  match l with
  | [] => Ok tt
  | x :: xs => if memb String.eqb x seen then Err ValueError else no_dup_from (x :: seen) xs
  end.
(** helpers/base.py:75-88 check_no_duplicates: sets are not inspected *)
Definition check_no_duplicates (c : coll string) : res unit :=
  match c with CNone => Ok tt | CSet _ => Ok tt | CList l => no_dup_from [] l end.

(** terms.py:36-47 Term.__init__ *)
Definition term_init (n : string) (tags : coll string) : res (string * list string) :=
  let* n' := parse_name n in
  check_no_duplicates tags ;;
  let* ts := to_type (dedup String.eqb (coll_items tags)) in
  Ok (n', dedup String.eqb ts).

(** terms.py:80-87 Constant.__init__ *)
Definition mk_const (n : string) (tag : option string) : res term :=
  let* p := term_init n (match tag with None => CNone | Some g => CSet [g] end) in
  Ok (TConst (fst p) (match snd p with [] => None | g :: _ => Some g end)).

(** terms.py:116-125 Variable.__init__ *)
Definition mk_var (n : string) (tags : coll string) : res var :=
  let* p := term_init n tags in Ok (mkVar (fst p) (snd p)).

(** terms.py:147-149 with_type_tags *)
Definition with_type_tags (v : var) (tags : coll string) : res var := mk_var (v_name v) tags.

(** terms.py:89-94 Constant.type_tag *)
Definition type_tag (t : term) : res (option string) :=
  match t_tags t with
  | [] => Ok None
  | [g] => Ok (Some g)
  | _ => Err AssertionError
  end.

(** * Numbers held by NumericValue (functions.py:116-148).
    [NDec m e] is the decimal m / 10^e (simplification: Python floats are binary; only values
    that print positionally are meant).  [NStr] is there because the problem parser stores the
    raw token of a metric number (parser/problem.py:187-192). *)
Inductive num : Type :=
| NInt (z : Z)
| NDec (m : Z) (e : nat)
| NStr (s : string).

(** the number a NumericValue holds (functions.py:119-126) *)
Definition num_value (v : num) : option Q :=
  match v with
  | NInt z => Some (inject_Z z)
  | NDec m e => Some (Qmake m (Z.to_pos (10 ^ Z.of_nat e)))
  | NStr _ => None
  end.

(** Python [==] between int / float / str *)
Definition num_eqb (a b : num) : bool :=
  match a, b with
  | NStr s, NStr t => String.eqb s t
  | _, _ => match num_value a, num_value b with
            | Some x, Some y => Qeq_bool x y
            | _, _ => false
            end
  end.

(** * Formulas, function expressions and effects *)

(** functions.py:252-405: subclasses of BinaryFunction *)
Inductive bfun : Type :=
| BEqual | BLess | BLessEq | BGreater | BGreaterEq
| BAssign | BScaleUp | BScaleDown | BIncrease | BDecrease
| BMinus | BPlus | BTimes | BDivide.

(** base.py:155-180: subclasses of BinaryOp *)
Inductive bop : Type := OAnd | OOr | OOneOf | OImply.

(** base.py:251-260 *)
Inductive quant : Type := QForall | QExists.

(** the classes of logic/base.py, predicates.py, functions.py and effects.py *)
Inductive form : Type :=
| FPred (n : string) (ts : list term)            (* predicates.py:47 Predicate *)
| FEq (l r : term)                               (* predicates.py:118 EqualTo *)
| FNumFun (n : string) (ts : list term)          (* functions.py:40 NumericFunction *)
| FNumVal (v : num)                              (* functions.py:116 NumericValue *)
| FBinFun (k : bfun) (ops : list form)           (* functions.py:151 BinaryFunction *)
| FBin (k : bop) (ops : list form)               (* base.py:51 BinaryOp *)
| FNot (f : form)                                (* base.py:183 Not *)
| FQuant (q : quant) (vs : list var) (c : form)  (* base.py:191 QuantifiedCondition *)
| FWhen (c e : form)                             (* effects.py:27 When *)
| FForall (vs : list var) (e : form).            (* effects.py:79 Forall *)

(** [type(a) is type(b)] of two BinaryFunction classes (functions.py:183-185) *)
Definition bfun_eqb (a b : bfun) : bool :=
  match a, b with
  | BEqual, BEqual | BLess, BLess | BLessEq, BLessEq | BGreater, BGreater
  | BGreaterEq, BGreaterEq | BAssign, BAssign | BScaleUp, BScaleUp | BScaleDown, BScaleDown
  | BIncrease, BIncrease | BDecrease, BDecrease | BMinus, BMinus | BPlus, BPlus
  | BTimes, BTimes | BDivide, BDivide => true
  | _, _ => false
  end.
(** [type(a) is type(b)] of two BinaryOp classes (base.py:81-83) *)
Definition bop_eqb (a b : bop) : bool :=
  match a, b with
  | OAnd, OAnd | OOr, OOr | OOneOf, OOneOf | OImply, OImply => true
  | _, _ => false
  end.
(** [type(a) is type(b)] of two quantifiers (base.py:232-238) *)
Definition quant_eqb (a b : quant) : bool :=
  match a, b with QForall, QForall | QExists, QExists => true | _, _ => false end.

(** [==] on formulas: predicates.py:99-105, 152-158; functions.py:95-101, 132-134, 183-185;
    base.py:81-83, 120-122, 232-238; effects.py:58-64, 107-113 *)
Fixpoint form_eqb (f g : form) {struct f} : bool :=
  match f, g with
  | FPred n ts, FPred m us => String.eqb n m && list_eqb term_eqb ts us
  | FEq l r, FEq l' r' => term_eqb l l' && term_eqb r r'
  | FNumFun n ts, FNumFun m us => String.eqb n m && list_eqb term_eqb ts us
  | FNumVal v, FNumVal w => num_eqb v w
  | FBinFun k ops, FBinFun k' ops' => bfun_eqb k k' && list_eqb form_eqb ops ops'
  | FBin k ops, FBin k' ops' => bop_eqb k k' && list_eqb form_eqb ops ops'
  | FNot a, FNot b => form_eqb a b
  | FQuant q vs c, FQuant q' vs' c' =>
      quant_eqb q q' && set_eqb var_eqb vs vs' && form_eqb c c'
  | FWhen c e, FWhen c' e' => form_eqb c c' && form_eqb e e'
  | FForall vs e, FForall vs' e' => set_eqb var_eqb vs vs' && form_eqb e e'
  | _, _ => false
  end.

(** ** Hashes.  The runtime's primitive hash functions (they depend on PYTHONHASHSEED) are a
    parameter; the two laws are what Python guarantees of numbers and frozensets. *)
Record hashes : Type := {
  h_str : string -> Z;
  h_num : Q -> Z;
  h_cls : string -> Z;
  h_none : Z;
  h_tuple : list Z -> Z;
  h_set : list Z -> Z;
  h_num_ok : forall a b, Qeq a b -> h_num a = h_num b;
  h_set_ok : forall l m, Permutation l m -> h_set l = h_set m
}.

Section Hash.
  Variable H : hashes.

  (** terms.py:143-145 *)
  Definition var_hash (v : var) : Z := h_tuple H [h_cls H "Variable"; h_str H (v_name v)].
  (** terms.py:108-110, 143-145 *)
  Definition term_hash (t : term) : Z :=
    match t with
    | TConst n _ => h_tuple H [h_cls H "Constant"; h_str H n]
    | TVar v => var_hash v
    end.
  (** functions.py:142-144 NumericValue.__hash__: hash(self._value) *)
  Definition num_hash (v : num) : Z :=
    match v with
    | NStr s => h_str H s
    | _ => match num_value v with Some q => h_num H q | None => 0%Z end
    end.
  (** the class object in the tuple hashed by functions.py:187-189 *)
  Definition bfun_class (k : bfun) : string :=
    match k with
    | BEqual => "functions.EqualTo" | BLess => "LesserThan" | BLessEq => "LesserEqualThan"
    | BGreater => "GreaterThan" | BGreaterEq => "GreaterEqualThan" | BAssign => "Assign"
    | BScaleUp => "ScaleUp" | BScaleDown => "ScaleDown" | BIncrease => "Increase"
    | BDecrease => "Decrease" | BMinus => "Minus" | BPlus => "Plus" | BTimes => "Times"
    | BDivide => "Divide"
    end.
  (** the class object in the tuple hashed by base.py:85-87 *)
  Definition bop_class (k : bop) : string :=
    match k with OAnd => "And" | OOr => "Or" | OOneOf => "OneOf" | OImply => "Imply" end.
  (** the class object in the tuple hashed by base.py:240-242 *)
  Definition quant_class (q : quant) : string :=
    match q with QForall => "ForallCondition" | QExists => "ExistsCondition" end.

  (** predicates.py:107-109, 160-162; functions.py:103-105, 142-144, 187-189;
      base.py:85-87, 124-126, 240-242; effects.py:66-68, 115-117 *)
  Fixpoint form_hash (f : form) : Z :=
    match f with
    | FPred n ts => h_tuple H [h_str H n; h_num H (inject_Z (Z.of_nat (length ts)));
                               h_tuple H (map term_hash ts)]
    | FEq l r => h_tuple H [h_cls H "predicates.EqualTo"; term_hash l; term_hash r]
    | FNumFun n ts => h_tuple H [h_str H n; h_tuple H (map term_hash ts)]
    | FNumVal v => num_hash v
    | FBinFun k ops => h_tuple H [h_cls H (bfun_class k); h_tuple H (map form_hash ops)]
    | FBin k ops => h_tuple H [h_cls H (bop_class k); h_tuple H (map form_hash ops)]
    | FNot g => h_tuple H [h_cls H "Not"; form_hash g]
    | FQuant q vs c => h_tuple H [h_cls H (quant_class q); h_set H (map var_hash vs); form_hash c]
    | FWhen c e => h_tuple H [h_cls H "When"; form_hash c; form_hash e]
    | FForall vs e => h_tuple H [h_cls H "Forall"; h_set H (map var_hash vs); form_hash e]
    end.
End Hash.

(** ** Constructors *)

(** predicates.py:26-42 _check_terms_consistency *)
Fixpoint consistency_from (seen : list (string * list string)) (ts : list term) : res unit :=
  match ts with
  | [] => Ok tt
  | t :: ts' =>
      match dict_get String.eqb (t_name t) seen with
      | None => consistency_from (dict_set String.eqb (t_name t) (t_tags t) seen) ts'
      | Some tags =>
          check (set_eqb String.eqb tags (t_tags t)) ValueError ;; consistency_from seen ts'
      end
  end.
(** predicates.py:26-42 _check_terms_consistency *)
Definition check_terms_consistency (ts : list term) : res unit := consistency_from [] ts.

(** predicates.py:50-54 Predicate.__init__ *)
Definition mk_pred (n : string) (ts : list term) : res form :=
  let* n' := parse_name n in
  check_terms_consistency ts ;; Ok (FPred n' ts).

(** predicates.py:121-130 EqualTo.__init__ *)
Definition mk_eq (l r : term) : res form :=
  check_terms_consistency [l; r] ;; Ok (FEq l r).

(** functions.py:43-46 NumericFunction.__init__ *)
Definition mk_numfun (n : string) (ts : list term) : res form :=
  let* n' := parse_function n in Ok (FNumFun n' ts).

(** a class deriving from BinaryOp / BinaryFunction, as a value: [cls] in
    base.py:292 and base.py:144 *)
Inductive opcls : Type := CBin (k : bop) | CFun (k : bfun).

(** [isinstance(element, cls)] together with [element.operands] (base.py:307, 312) *)
Definition ops_if (c : opcls) (f : form) : option (list form) :=
  match c, f with
  | CBin k, FBin k' ops => if bop_eqb k k' then Some ops else None
  | CFun k, FBinFun k' ops => if bfun_eqb k k' then Some ops else None
  | _, _ => None
  end.

(** not in the code: the number of nodes, to bound the loop of base.py:302-314 *)
Fixpoint form_size (f : form) : nat :=
  match f with
  | FBinFun _ ops | FBin _ ops => S (fold_right (fun g n => form_size g + n) 0 ops)
  | FNot g => S (form_size g)
  | FQuant _ _ c => S (form_size c)
  | FWhen c e => S (form_size c + form_size e)
  | FForall _ e => S (form_size e)
  | _ => 1
  end.
(** not in the code: the same for a list of operands *)
Definition forms_size (l : list form) : nat := fold_right (fun g n => form_size g + n) 0 l.

(** base.py:302-314: the explicit-stack loop.  [stack] is the Python stack with its top first
    (Python keeps it reversed); [seen] is the set, [out] is new_operands.  The loop is given
    [fuel] iterations; Logic_facts.flatten_loop_spec shows [forms_size stack] always suffices. *)
Fixpoint flatten_loop (fuel : nat) (c : opcls) (stack seen out : list form) : list form :=
  match fuel with
  | O => out
  | S fuel' =>
      match stack with
      | [] => out
      | x :: st =>
          match ops_if c x with
          | None =>
              if memb form_eqb x seen then flatten_loop fuel' c st seen out
              else flatten_loop fuel' c st (x :: seen) (out ++ [x])
          | Some ops => flatten_loop fuel' c (ops ++ st) seen out
          end
      end
  end.

(** base.py:292-314 _simplify_monotone_op_operands *)
Definition simplify_operands (c : opcls) (idempotency : bool) (ops : list form) : list form :=
  let old := if idempotency then dedup form_eqb ops else ops in
  match old with
  | [] => []
  | [x] => [x]
  | _ => flatten_loop (S (forms_size old)) c old [] []
  end.

(** base.py:56-62, functions.py:156-162: the instance itself, without the metaclass *)
Definition raw_node (c : opcls) (ops : list form) : form :=
  match c with CBin k => FBin k ops | CFun k => FBinFun k ops end.

(** Which classes use BinaryOpMetaclass, and with which [idempotency]
    (base.py:155-168; functions.py:252, 352, 366, 380, 394; default False base.py:142) *)
Definition metaclass (c : opcls) : option bool :=
  match c with
  | CBin OAnd | CBin OOr => Some true
  | CBin _ => None
  | CFun BEqual | CFun BMinus | CFun BPlus | CFun BTimes | CFun BDivide => Some false
  | CFun _ => None
  end.

(** base.py:144-152 BinaryOpMetaclass.__call__, or the plain constructor (base.py:56-62,
    functions.py:156-162) *)
Definition mk_op (c : opcls) (ops : list form) : form :=
  match metaclass c with
  | None => raw_node c ops
  | Some idem =>
      match simplify_operands c idem ops with
      | [x] => if idem then x else raw_node c [x]
      | l => raw_node c l
      end
  end.

(** calling And (base.py:155-160) *)
Definition mk_and (ops : list form) : form := mk_op (CBin OAnd) ops.
(** calling Or (base.py:163-168) *)
Definition mk_or (ops : list form) : form := mk_op (CBin OOr) ops.
(** calling And, Or, OneOf or Imply (base.py:155-180) *)
Definition mk_bin (k : bop) (ops : list form) : form := mk_op (CBin k) ops.
(** the constructors of functions.py:252-405 *)
Definition mk_binfun (k : bfun) (ops : list form) : form := mk_op (CFun k) ops.
(** base.py:95-101 *)
Definition mk_not (f : form) : form := FNot f.
(** base.py:196-201 QuantifiedCondition.__init__ ([ensure_set]) *)
Definition mk_quant (q : quant) (vs : list var) (c : form) : form :=
  FQuant q (dedup var_eqb vs) c.
(** effects.py:30-38, 82-87 *)
Definition mk_when (c e : form) : form := FWhen c e.
(** effects.py:82-87 Forall.__init__ ([ensure_set]) *)
Definition mk_forall (vs : list var) (e : form) : form := FForall (dedup var_eqb vs) e.

(** base.py:34-48 operator overloads *)
Definition op_invert (f : form) : form := mk_not f.
(** base.py:38-40 __and__ *)
Definition op_and (f g : form) : form := mk_and [f; g].
(** base.py:42-44 __or__ *)
Definition op_or (f g : form) : form := mk_or [f; g].
(** base.py:46-48 __rshift__ *)
Definition op_rshift (f g : form) : form := mk_or [mk_not f; g].

(** base.py:263-271 ensure_formula *)
Definition ensure_formula (f : option form) (is_none_true : bool) : form :=
  match f with Some g => g | None => if is_none_true then mk_and [] else mk_or [] end.

(** isinstance(f, Atomic): predicates.py:47, 118; functions.py:29 and subclasses *)
Definition is_atomic (f : form) : bool :=
  match f with
  | FPred _ _ | FEq _ _ | FNumFun _ _ | FNumVal _ | FBinFun _ _ => true
  | _ => false
  end.
(** base.py:274-289 is_literal *)
Definition is_literal (f : form) : bool :=
  is_atomic f || match f with FNot g => is_atomic g | _ => false end.

(** ** instantiate: base.py:69-71, 108-110, 213-215; predicates.py:71-81, 142-150;
    functions.py:63-73, 128-130, 169-173.  When and Forall (effects.py) have no such method:
    AttributeError.  [m] is the mapping, a dict keyed by terms. *)
Definition mapping := list (term * term).

(** predicates.py:74-80, 146-149, functions.py:66-72: one term *)
Definition inst_term (m : mapping) (t : term) : term :=
  match t with
  | TVar _ => match dict_get term_eqb t m with Some u => u | None => t end
  | _ => t
  end.

(** base.py:69-71, 108-110, 213-215; predicates.py:71-81, 142-150; functions.py:63-73, 128-130,
    169-173 instantiate *)
Fixpoint instantiate (m : mapping) (f : form) : res form :=
  match f with
  | FPred n ts => mk_pred n (map (inst_term m) ts)
  | FEq l r => mk_eq (inst_term m l) (inst_term m r)
  | FNumFun n ts => mk_numfun n (map (inst_term m) ts)
  | FNumVal v => Ok (FNumVal v)
  | FBinFun k ops => let* ops' := mapR (instantiate m) ops in Ok (mk_binfun k ops')
  | FBin k ops => let* ops' := mapR (instantiate m) ops in Ok (mk_bin k ops')
  | FNot g => let* g' := instantiate m g in Ok (mk_not g')
  | FQuant q vs c => let* c' := instantiate m c in Ok (mk_quant q vs c')
  | FWhen _ _ => Err AttributeError
  | FForall _ _ => Err AttributeError
  end.

(** predicates.py:83-86 Predicate.__call__ *)
Definition pred_call (f : form) (ts : list term) : res form :=
  match f with
  | FPred n us => check (Nat.eqb (length ts) (length us)) AssertionError ;; mk_pred n ts
  | _ => Err TypeError
  end.

(** functions.py:75-82 NumericFunction.__call__ *)
Definition numfun_call (f : form) (ts : list term) : res form :=
  match f with
  | FNumFun n us =>
      check (Nat.eqb (length ts) (length us)) AssertionError ;;
      check (forallb (fun p => set_eqb String.eqb (t_tags (fst p)) (t_tags (snd p)))
                     (combine us ts)) AssertionError ;;
      mk_numfun n ts
  | _ => Err TypeError
  end.

(** predicates.py:111-115 Predicate.__lt__, functions.py:107-111 NumericFunction.__lt__:
    (name, terms) compared lexicographically *)
Definition atom_lt (n : string) (ts : list term) (m : string) (us : list term) : bool :=
  if String.eqb n m then seq_lt term_eqb term_lt ts us else str_lt n m.
(** predicates.py:111-115 Predicate.__lt__: NotImplemented for another class becomes TypeError *)
Definition pred_lt (f g : form) : res bool :=
  match f, g with
  | FPred n ts, FPred m us => Ok (atom_lt n ts m us)
  | _, _ => Err TypeError
  end.

(** * DerivedPredicate (predicates.py:175-232); [dp_pred] is a Predicate *)
Record derived : Type := mkDerived { dp_name : string; dp_terms : list term; dp_cond : form }.
(** predicates.py:188-191 DerivedPredicate.predicate *)
Definition dp_pred (d : derived) : form := FPred (dp_name d) (dp_terms d).
(** predicates.py:217-223 *)
Definition derived_eqb (a b : derived) : bool :=
  form_eqb (dp_pred a) (dp_pred b) && form_eqb (dp_cond a) (dp_cond b).
(** predicates.py:205-207 *)
Definition derived_hash (H : hashes) (d : derived) : Z :=
  h_tuple H [h_cls H "DerivedPredicate"; form_hash H (dp_pred d); form_hash H (dp_cond d)].
(** predicates.py:225-232: the tuple (self.predicate, self._predicate) is compared with
    (other.predicate, other.condition) *)
Definition derived_lt (a b : derived) : res bool :=
  if form_eqb (dp_pred a) (dp_pred b) then
    if form_eqb (dp_pred a) (dp_cond b) then Ok false
    else pred_lt (dp_pred a) (dp_cond b)
  else pred_lt (dp_pred a) (dp_pred b).
(** predicates.py:198-203 *)
Definition derived_instantiate (m : mapping) (d : derived) : res derived :=
  let* p := instantiate m (dp_pred d) in
  let* c := instantiate m (dp_cond d) in
  match p with
  | FPred n ts => Ok (mkDerived n ts c)
  | _ => Err TypeError
  end.

(** * Metric (functions.py:192-249) *)
Record metric : Type := mkMetric { me_expr : form; me_opt : string }.
(** functions.py:198-207, 224-229 *)
Definition mk_metric (e : form) (opt : string) : res metric :=
  check (memb String.eqb opt ["maximize"; "minimize"]) AssertionError ;; Ok (mkMetric e opt).
(** functions.py:239-245 *)
Definition metric_eqb (a b : metric) : bool :=
  form_eqb (me_expr a) (me_expr b) && String.eqb (me_opt a) (me_opt b).
(** functions.py:247-249 *)
Definition metric_hash (H : hashes) (m : metric) : Z :=
  h_tuple H [form_hash H (me_expr m); h_str H (me_opt m)].

(** * logic/helpers.py *)
(** helpers.py:22-34 variables *)
Definition variables (s : string) (types : coll string) : res (list var) :=
  mapR (fun x => mk_var x (CSet (dedup String.eqb (coll_items types)))) (split_ws s).
(** helpers.py:37-48 constants *)
Definition constants (s : string) (type_ : option string) : res (list term) :=
  mapR (fun x => mk_const x type_) (split_ws s).
