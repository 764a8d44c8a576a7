(** Specification: when two objects have the same repr (C75).  Nothing here models code. *)
From Coq Require Import String List.
From Verif Require Import Py Logic Validation Names_facts Spec_Distinct.
Import ListNotations.

(** no number stands where repr, and not str, is used for it: numbers have no repr of their own *)
Fixpoint no_bare_number (f : form) : Prop :=
  match f with
  | FNumVal _ => False
  | FBinFun _ ops | FBin _ ops => fold_right (fun g p => no_bare_number g /\ p) True ops
  | FNot g => no_bare_number g
  | _ => True
  end.

(** the same up to what repr does not say: the types of terms and of quantified variables, and, in
    the parts that are printed with str, what str does not say *)
Inductive same_repr : form -> form -> Prop :=
| RR_pred n ts us : Forall2 same_word ts us -> same_repr (FPred n ts) (FPred n us)
| RR_fun n ts us : Forall2 same_word ts us -> same_repr (FNumFun n ts) (FNumFun n us)
| RR_eq l r l' r' : same_word l l' -> same_word r r' -> same_repr (FEq l r) (FEq l' r')
| RR_binfun k fs gs : Forall2 same_repr fs gs -> same_repr (FBinFun k fs) (FBinFun k gs)
| RR_bin k fs gs : Forall2 same_repr fs gs -> same_repr (FBin k fs) (FBin k gs)
| RR_not f g : same_repr f g -> same_repr (FNot f) (FNot g)
| RR_quant q vs ws c d : map v_name vs = map v_name ws -> same_reading c d ->
    same_repr (FQuant q vs c) (FQuant q ws d)
| RR_when c e c' e' : same_reading c c' -> same_reading e e' -> same_repr (FWhen c e) (FWhen c' e')
| RR_forall vs ws c d : map v_name vs = map v_name ws -> same_reading c d ->
    same_repr (FForall vs c) (FForall ws d).

(** the quantified variables whose types repr leaves out have none *)
Fixpoint bound_untyped (f : form) : Prop :=
  match f with
  | FBinFun _ ops | FBin _ ops => fold_right (fun g p => bound_untyped g /\ p) True ops
  | FNot g => bound_untyped g
  | FQuant _ vs _ | FForall vs _ => Forall (fun v => v_tags v = []) vs
  | _ => True
  end.

(** atoms, comparisons of functions and connectives only *)
Fixpoint no_sets (f : form) : Prop :=
  match f with
  | FPred _ _ | FEq _ _ | FNumFun _ _ => True
  | FBinFun _ ops | FBin _ ops => fold_right (fun g p => no_sets g /\ p) True ops
  | FNot g => no_sets g
  | _ => False
  end.

(** the same bodies: both absent, or the same reading *)
Inductive same_body : option form -> option form -> Prop :=
| SB_none : same_body None None
| SB_some f g : same_reading f g -> same_body (Some f) (Some g).

(** the names of an action are names of the language *)
Definition named_body (o : option form) : Prop := match o with Some f => well_named f | None => True end.
Definition action_named (a : action) : Prop :=
  legal_name (a_name a) /\ Forall (fun t => legal_name (t_name t)) (a_params a)
  /\ named_body (a_pre a) /\ named_body (a_eff a).
