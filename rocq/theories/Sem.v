(** Specification: the meaning of conditions and numeric expressions in a state.
    This file does not model code; it says what the formulas of Logic.v denote and uses none
    of the library's functions. *)
From Coq Require Import String List Bool ZArith QArith.
From Verif Require Import Logic.
Import ListNotations.
Open Scope string_scope.
Open Scope list_scope.

(** A state: objects, what the names denote in it, which objects belong to a type *)
Record interp : Type := {
  obj : Type;
  i_const : string -> obj;
  i_pred : string -> list obj -> Prop;
  i_func : string -> list obj -> Q;
  i_type : string -> obj -> Prop
}.

Section Sem.
  Variable I : interp.
  (** a variable stands for the object given to its name *)
  Definition env := string -> obj I.

  Definition den (e : env) (t : term) : obj I :=
    match t with TConst n _ => i_const I n | TVar v => e (v_name v) end.

  Definition num_q (v : num) : Q := match num_value v with Some q => q | None => 0%Q end.

  (** numeric expressions; [-] with one operand is negation, otherwise [-] and [/] associate to
      the left *)
  Fixpoint value (e : env) (f : form) : Q :=
    match f with
    | FNumFun n ts => i_func I n (map (den e) ts)
    | FNumVal v => num_q v
    | FBinFun BPlus ops => fold_right (fun g q => value e g + q)%Q 0%Q ops
    | FBinFun BTimes ops => fold_right (fun g q => value e g * q)%Q 1%Q ops
    | FBinFun BMinus [] => 0%Q
    | FBinFun BMinus [x] => (- value e x)%Q
    | FBinFun BMinus (x :: xs) => fold_left (fun q g => q - value e g)%Q xs (value e x)
    | FBinFun BDivide [] => 0%Q
    | FBinFun BDivide (x :: xs) => fold_left (fun q g => q / value e g)%Q xs (value e x)
    | _ => 0%Q
    end.

  (** an object fits a variable: it belongs to one of its types, if it has any *)
  Definition fits (v : var) (o : obj I) : Prop :=
    v_tags v = [] \/ exists g, In g (v_tags v) /\ i_type I g o.

  (** [e'] gives the variables [vs] values of their types and agrees with [e] elsewhere *)
  Definition extends (vs : list var) (e e' : env) : Prop :=
    (forall n, ~ In n (map v_name vs) -> e' n = e n) /\
    (forall v, In v vs -> fits v (e' (v_name v))).

  (** conditions.  Nodes that are not conditions (effects, bare numeric expressions, operators
      with a wrong number of operands) are false. *)
  Fixpoint holds (e : env) (f : form) : Prop :=
    match f with
    | FPred n ts => i_pred I n (map (den e) ts)
    | FEq l r => den e l = den e r
    | FBinFun BEqual ops =>
        forall a b, In a (map (value e) ops) -> In b (map (value e) ops) -> (a == b)%Q
    | FBinFun BLess [a; b] => (value e a < value e b)%Q
    | FBinFun BLessEq [a; b] => (value e a <= value e b)%Q
    | FBinFun BGreater [a; b] => (value e b < value e a)%Q
    | FBinFun BGreaterEq [a; b] => (value e b <= value e a)%Q
    | FBin OAnd ops => fold_right (fun g p => holds e g /\ p) True ops
    | FBin OOr ops => fold_right (fun g p => holds e g \/ p) False ops
    | FBin OImply [a; b] => holds e a -> holds e b
    | FNot g => ~ holds e g
    | FQuant QForall vs c => forall e', extends vs e e' -> holds e' c
    | FQuant QExists vs c => exists e', extends vs e e' /\ holds e' c
    | _ => False
    end.
End Sem.
