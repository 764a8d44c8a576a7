(** Specification: what a metric's expression stands for; the library keeps its numbers as texts
    (C47).  Nothing here models code. *)
From Coq Require Import String List Bool QArith.
From Verif Require Import Py Logic Lexer Sem Spec_Parse Spec_Numbers.
Import ListNotations.
Open Scope string_scope.
Open Scope list_scope.

(** the same expression with the number that each text writes in the place of that text *)
Inductive stands_for : form -> form -> Prop :=
| sf_num s v q r : numeral s q -> num_value v = Some r -> (r == q)%Q -> stands_for (FNumVal (NStr s)) (FNumVal v)
| sf_fun n ts : stands_for (FNumFun n ts) (FNumFun n ts)
| sf_op k l l' : Forall2 stands_for l l' -> stands_for (FBinFun k l) (FBinFun k l').

(** all numbers of a text are numerals: the tokens also allow 1.2.3 *)
Definition numerals_only (x : sexp) : Prop := forall s, number_in s x -> exists q, numeral s q.
