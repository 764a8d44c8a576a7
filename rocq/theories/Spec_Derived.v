(** Specification of the scoping of type tags (C27) and of the type hierarchy (C28).
    Nothing here uses the library's functions. *)
From Coq Require Import String List Bool Relations.
From Verif Require Import Logic.
Import ListNotations.
Open Scope string_scope.
Open Scope list_scope.

(** which tags an occurrence of a name must carry; None: no demand *)
Definition tagenv := string -> option (list string).

(** inside a quantifier, the tags of the innermost binder *)
Definition below (vs : list var) (e : tagenv) : tagenv :=
  fun n => match find (fun v => String.eqb (v_name v) n) vs with
           | Some v => Some (v_tags v)
           | None => e n
           end.

Definition term_scoped (e : tagenv) (t : term) : Prop :=
  match t with
  | TVar v => match e (v_name v) with Some gs => v_tags v = gs | None => True end
  | TConst _ _ => True
  end.
Fixpoint scoped (e : tagenv) (f : form) : Prop :=
  match f with
  | FPred _ ts | FNumFun _ ts => Forall (term_scoped e) ts
  | FEq l r => term_scoped e l /\ term_scoped e r
  | FNumVal _ => True
  | FBinFun _ ops | FBin _ ops => fold_right (fun g p => scoped e g /\ p) True ops
  | FNot g => scoped e g
  | FQuant _ vs c => scoped (below vs e) c
  | FWhen c g => scoped e c /\ scoped e g
  | FForall vs g => scoped (below vs e) g
  end.

(** a formula without the tags of its variable occurrences; binders are kept as they are *)
Definition strip_term (t : term) : term :=
  match t with TVar v => TVar (mkVar (v_name v) []) | TConst _ _ => t end.
Fixpoint strip (f : form) : form :=
  match f with
  | FPred n ts => FPred n (map strip_term ts)
  | FEq l r => FEq (strip_term l) (strip_term r)
  | FNumFun n ts => FNumFun n (map strip_term ts)
  | FNumVal v => FNumVal v
  | FBinFun k ops => FBinFun k (map strip ops)
  | FBin k ops => FBin k (map strip ops)
  | FNot g => FNot (strip g)
  | FQuant q vs c => FQuant q vs (strip c)
  | FWhen c g => FWhen (strip c) (strip g)
  | FForall vs g => FForall vs (strip g)
  end.

(** the tags of the arguments of a (derived) predicate *)
Definition head_env (ts : list term) : tagenv :=
  fun n => match find (fun t => String.eqb (t_name t) n) ts with
           | Some t => Some (t_tags t)
           | None => None
           end.

(** ** the type hierarchy: descendant-or-self, and while loops *)
Definition descendant_or_self (d : list (string * option string)) : string -> string -> Prop :=
  clos_refl_trans string (fun a b => In (a, Some b) d).

(** [step] maps a state to the next state or to the result of the loop *)
Inductive ends {S R} (step : S -> S + R) : S -> R -> Prop :=
| ends_now s r : step s = inr r -> ends step s r
| ends_later s s' r : step s = inl s' -> ends step s' r -> ends step s r.
CoInductive runs_forever {S R} (step : S -> S + R) : S -> Prop :=
| rf s s' : step s = inl s' -> runs_forever step s' -> runs_forever step s.
