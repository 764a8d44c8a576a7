(** C74: when two formulas print as the same text. *)
From Coq Require Import String List ZArith.
From Verif Require Import Py Logic Show.
From Verif Require Import Names_facts Spec_Print Spec_Numbers.
Import ListNotations.
Open Scope string_scope.
Open Scope list_scope.

(** ** formulas whose names are names of the language and whose numbers are not negative *)
Fixpoint well_named (f : form) : Prop :=
  match f with
  | FPred n ts => legal_name n /\ Forall (fun t => legal_name (t_name t)) ts
  | FEq l r => legal_name (t_name l) /\ legal_name (t_name r)
  | FNumFun n ts => legal_function n /\ Forall (fun t => legal_name (t_name t)) ts
  | FNumVal v => dotted (show_num v)
  | FBinFun _ ops | FBin _ ops => fold_right (fun g p => well_named g /\ p) True ops
  | FNot g => well_named g
  | FQuant _ vs g => Forall legal_var vs /\ well_named g
  | FWhen g e => well_named g /\ well_named e
  | FForall vs e => Forall legal_var vs /\ well_named e
  end.

(** ** the same up to what the text does not say: the types of terms, whether a name is a
    predicate's or a function's, whether a forall is a condition or an effect *)
Inductive same_word : term -> term -> Prop :=
| ST_const n g h : same_word (TConst n g) (TConst n h)
| ST_var n g h : same_word (TVar (mkVar n g)) (TVar (mkVar n h)).

Inductive atomic : form -> string -> list term -> Prop :=
| A_pred n ts : atomic (FPred n ts) n ts
| A_fun n ts : atomic (FNumFun n ts) n ts.

Inductive universal : form -> list var -> form -> Prop :=
| U_cond vs g : universal (FQuant QForall vs g) vs g
| U_eff vs g : universal (FForall vs g) vs g.

Inductive same_reading : form -> form -> Prop :=
| SR_atom f g n ts us : atomic f n ts -> atomic g n us -> Forall2 same_word ts us -> same_reading f g
| SR_eq l r l' r' : same_word l l' -> same_word r r' -> same_reading (FEq l r) (FEq l' r')
| SR_num v w : show_num v = show_num w -> same_reading (FNumVal v) (FNumVal w)
| SR_fun k fs gs : Forall2 same_reading fs gs -> same_reading (FBinFun k fs) (FBinFun k gs)
| SR_op k fs gs : Forall2 same_reading fs gs -> same_reading (FBin k fs) (FBin k gs)
| SR_not f g : same_reading f g -> same_reading (FNot f) (FNot g)
| SR_exists vs f g : same_reading f g -> same_reading (FQuant QExists vs f) (FQuant QExists vs g)
| SR_forall f g vs f' g' : universal f vs f' -> universal g vs g' -> same_reading f' g' -> same_reading f g
| SR_when c e c' e' : same_reading c c' -> same_reading e e' -> same_reading (FWhen c e) (FWhen c' e').

(** ** formulas without that ambiguity: variable occurrences without types, predicates and
    functions of different names ([funs]: the names of functions), numbers that are all numbers, not
    negative, or all texts, and foralls that are conditions in a condition ([cond]) and effects
    elsewhere *)
Definition plain_term (t : term) : Prop := match t with TConst _ _ => True | TVar v => v_tags v = [] end.
Definition plain_num (texts : bool) (v : num) : Prop :=
  match v with NStr _ => texts = true | NInt z => texts = false /\ (0 <= z)%Z | NDec m _ => texts = false /\ (0 <= m)%Z end.
Fixpoint plain (funs : string -> Prop) (texts cond : bool) (f : form) : Prop :=
  match f with
  | FPred n ts => ~ funs n /\ Forall plain_term ts
  | FEq l r => plain_term l /\ plain_term r
  | FNumFun n ts => funs n /\ Forall plain_term ts
  | FNumVal v => plain_num texts v
  | FBinFun _ ops | FBin _ ops => fold_right (fun g p => plain funs texts cond g /\ p) True ops
  | FNot g => plain funs texts cond g
  | FQuant q _ g => (q = QForall -> cond = true) /\ plain funs texts cond g
  | FWhen g e => plain funs texts true g /\ plain funs texts cond e
  | FForall _ e => cond = false /\ plain funs texts cond e
  end.
