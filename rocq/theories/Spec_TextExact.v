(** Specification for C31: the constants of a formula, and formulas made of parts with a text.
    Nothing here models code. *)
From Coq Require Import String List Bool ZArith.
From Verif Require Import Py Names Logic Spec_Print Names_facts.
Import ListNotations.
Open Scope list_scope.

(** the constants, with their types, in the order of their occurrences; == compares their names
    only *)
Definition term_constants (t : term) : list (string * option string) :=
  match t with TConst n g => [(n, g)] | TVar _ => [] end.
Fixpoint constants_of (f : form) : list (string * option string) :=
  match f with
  | FPred _ ts | FNumFun _ ts => flat_map term_constants ts
  | FEq l r => term_constants l ++ term_constants r
  | FNumVal _ => []
  | FBinFun _ ops | FBin _ ops => flat_map constants_of ops
  | FNot g | FQuant _ _ g | FForall _ g => constants_of g
  | FWhen g e => constants_of g ++ constants_of e
  end.

(** the terms and the quantified variables are those the library's constructors return, and the
    numbers are not negative (nor text) *)
Definition not_negative (v : num) : Prop :=
  match v with NInt z => (0 <= z)%Z | NDec m _ => (0 <= m)%Z | NStr _ => False end.
Definition legal_term (t : term) : Prop := legal_name (t_name t).
Inductive legal_parts : form -> Prop :=
| L_pred n ts : Forall legal_term ts -> legal_parts (FPred n ts)
| L_eq l r : legal_term l -> legal_term r -> legal_parts (FEq l r)
| L_fun n ts : Forall legal_term ts -> legal_parts (FNumFun n ts)
| L_num v : not_negative v -> legal_parts (FNumVal v)
| L_binfun k ops : Forall legal_parts ops -> legal_parts (FBinFun k ops)
| L_bin k ops : Forall legal_parts ops -> legal_parts (FBin k ops)
| L_not f : legal_parts f -> legal_parts (FNot f)
| L_quant q vs f : Forall legal_var vs -> legal_parts f -> legal_parts (FQuant q vs f)
| L_when f e : legal_parts f -> legal_parts e -> legal_parts (FWhen f e)
| L_forall vs f : Forall legal_var vs -> legal_parts f -> legal_parts (FForall vs f).
