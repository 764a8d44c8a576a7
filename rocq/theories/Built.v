(** Specification: the formulas a program can hold, i.e. those obtained by calling the public
    constructors of Logic.v any number of times. *)
From Coq Require Import String List.
From Verif Require Import Py Names Logic.

Inductive built : form -> Prop :=
| B_pred n ts f : mk_pred n ts = Ok f -> built f
| B_eq l r f : mk_eq l r = Ok f -> built f
| B_numfun n ts f : mk_numfun n ts = Ok f -> built f
| B_numval v : built (FNumVal v)
| B_binfun k ops : Forall built ops -> built (mk_binfun k ops)
| B_bin k ops : Forall built ops -> built (mk_bin k ops)
| B_not f : built f -> built (mk_not f)
| B_quant q vs c : built c -> built (mk_quant q vs c)
| B_when c e : built c -> built e -> built (mk_when c e)
| B_forall vs e : built e -> built (mk_forall vs e).
