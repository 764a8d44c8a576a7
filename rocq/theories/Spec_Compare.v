(** Specification for C68: which conditions, effects and numbers have an order between them.
    Nothing here models code. *)
From Coq Require Import String List Bool.
From Verif Require Import Py Logic.
Import ListNotations.

(** the types of every term are a set: true of every variable and constant that can be made *)
Fixpoint types_are_sets (f : form) : Prop :=
  match f with
  | FPred _ ts | FNumFun _ ts => Forall (fun t => NoDup (t_tags t)) ts
  | FEq l r => NoDup (t_tags l) /\ NoDup (t_tags r)
  | FNumVal _ => True
  | FBinFun _ ops | FBin _ ops => fold_right (fun g P => types_are_sets g /\ P) True ops
  | FNot g => types_are_sets g
  | FQuant _ _ c => types_are_sets c
  | FWhen c e => types_are_sets c /\ types_are_sets e
  | FForall _ e => types_are_sets e
  end.

(** the same variables, each with the same types *)
Definition same_vars (vs ws : list var) : Prop :=
  forall v, memb var_eqb v vs = true <-> memb var_eqb v ws = true.
Definition some_vars (vs ws : list var) : Prop :=
  forall v, memb var_eqb v vs = true -> memb var_eqb v ws = true.

(** two objects the interpreter can compare: both are predicates, or function terms, or numbers,
    or quantified conditions, or conditional effects, or universal effects, and where they first
    differ is again such a pair or a set of variables *)
Inductive comparable : form -> form -> Prop :=
| K_pred n ts m us : comparable (FPred n ts) (FPred m us)
| K_fun n ts m us : comparable (FNumFun n ts) (FNumFun m us)
| K_num v w x y : num_value v = Some x -> num_value w = Some y -> comparable (FNumVal v) (FNumVal w)
| K_str s t : comparable (FNumVal (NStr s)) (FNumVal (NStr t))
| K_quant_vars q vs c r ws d : ~ same_vars vs ws -> comparable (FQuant q vs c) (FQuant r ws d)
| K_quant_same q vs c r ws d : form_eqb c d = true -> comparable (FQuant q vs c) (FQuant r ws d)
| K_quant q vs c r ws d : comparable c d -> comparable (FQuant q vs c) (FQuant r ws d)
| K_when_same c e d k : form_eqb c d = true -> form_eqb e k = true -> comparable (FWhen c e) (FWhen d k)
| K_when_cond c e d k : form_eqb c d = false -> comparable c d -> comparable (FWhen c e) (FWhen d k)
| K_when_eff c e d k : form_eqb c d = true -> comparable e k -> comparable (FWhen c e) (FWhen d k)
| K_forall_vars vs e ws k : ~ same_vars vs ws -> comparable (FForall vs e) (FForall ws k)
| K_forall_same vs e ws k : form_eqb e k = true -> comparable (FForall vs e) (FForall ws k)
| K_forall vs e ws k : comparable e k -> comparable (FForall vs e) (FForall ws k).

(** two objects that can be compared, but where none is the smaller: they first differ in two sets
    of variables none of which includes the other, or only in their quantifiers *)
Inductive unrelated : form -> form -> Prop :=
| U_quant_vars q vs c r ws d : ~ some_vars vs ws -> ~ some_vars ws vs ->
    unrelated (FQuant q vs c) (FQuant r ws d)
| U_quant_kind q vs c r ws d : q <> r -> same_vars vs ws -> form_eqb c d = true ->
    unrelated (FQuant q vs c) (FQuant r ws d)
| U_quant q vs c r ws d : same_vars vs ws -> form_eqb c d = false -> unrelated c d ->
    unrelated (FQuant q vs c) (FQuant r ws d)
| U_when_cond c e d k : form_eqb c d = false -> unrelated c d -> unrelated (FWhen c e) (FWhen d k)
| U_when_eff c e d k : form_eqb c d = true -> form_eqb e k = false -> unrelated e k ->
    unrelated (FWhen c e) (FWhen d k)
| U_forall_vars vs e ws k : ~ some_vars vs ws -> ~ some_vars ws vs ->
    unrelated (FForall vs e) (FForall ws k)
| U_forall vs e ws k : same_vars vs ws -> form_eqb e k = false -> unrelated e k ->
    unrelated (FForall vs e) (FForall ws k).
