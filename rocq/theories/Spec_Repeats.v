(** The operands that occur again. *)
From Coq Require Import List QArith.
From Verif Require Import Py Logic Sem.
Import ListNotations.

(** the members of a list that are == to an earlier one (or to one of [seen]) *)
Fixpoint later_copies (seen l : list form) : list form :=
  match l with
  | [] => []
  | x :: r => if memb form_eqb x seen then x :: later_copies seen r else later_copies (x :: seen) r
  end.

(** the sum and the product of the values of some expressions *)
Definition sum_of (I : interp) (e : env I) (l : list form) : Q := fold_right (fun g q => value I e g + q)%Q 0%Q l.
Definition product_of (I : interp) (e : env I) (l : list form) : Q := fold_right (fun g q => value I e g * q)%Q 1%Q l.
