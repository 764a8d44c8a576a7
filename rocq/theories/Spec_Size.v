(** Sizes (C87). *)
From Coq Require Import String List.
From Verif Require Import Py Names Reqs Logic Validation Core.
Import ListNotations.

Definition sum {A} (w : A -> nat) (l : list A) : nat := fold_right (fun x n => w x + n) 0 l.

(** the number of objects a formula consists of: conditions, operators, predicates, functions,
    numbers, terms and bound variables.  The types of terms are not counted. *)
Fixpoint size (f : form) : nat :=
  match f with
  | FPred _ ts | FNumFun _ ts => 1 + length ts
  | FEq _ _ => 3
  | FNumVal _ => 1
  | FBinFun _ ops | FBin _ ops => 1 + fold_right (fun g n => size g + n) 0 ops
  | FNot g => 1 + size g
  | FQuant _ vs g | FForall vs g => 1 + length vs + size g
  | FWhen c e => 1 + size c + size e
  end.
Definition size_opt (o : option form) : nat := match o with Some f => size f | None => 0 end.
Definition size_action (a : action) : nat := 1 + length (a_params a) + size_opt (a_pre a) + size_opt (a_eff a).
Definition size_derived (x : derived) : nat := 1 + length (dp_terms x) + size (dp_cond x).
Definition size_head (p : atom) : nat := 1 + length (snd p).
Definition size_domain (d : domain) : nat :=
  1 + length (d_reqs d) + length (d_types d) + length (d_constants d)
  + sum size_head (d_predicates d) + sum (fun f => size_head (fst f)) (d_functions d)
  + sum size_derived (d_derived d) + sum size_action (d_actions d).
Definition size_problem (p : problem) : nat :=
  1 + match p_reqs p with Some rs => length rs | None => 0 end + length (p_objects p)
  + sum size (p_init p) + size (p_goal p) + match p_metric p with Some m => 1 + size (me_expr m) | None => 0 end.
Definition size_plan (pl : plan) : nat := sum (fun st => 1 + length (snd st)) pl.
