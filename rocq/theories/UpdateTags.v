(** Model of pddl/parser/_update_type_tags.py. *)
From Coq Require Import String List Bool.
From Verif Require Import Py Names Logic.
Import ListNotations.
Open Scope string_scope.
Open Scope list_scope.

(** var_to_types: a dict from variable names to frozensets of type names *)
Definition tagmap := list (string * list string).

(** _update_type_tags.py:122-127 _replace_term_with_type_tags_if_var *)
Definition replace_term (m : tagmap) (t : term) : res term :=
  match t with
  | TVar v =>
      match dict_get String.eqb (v_name v) m with
      | Some tags => let* v' := with_type_tags v (CSet tags) in Ok (TVar v')
      | None => Ok t
      end
  | _ => Ok t
  end.

(** _update_type_tags.py:67-69: the mapping below a quantifier *)
Definition bind_vars (m : tagmap) (vs : list var) : tagmap :=
  fold_left (fun d v => dict_set String.eqb (v_name v) (v_tags v) d) vs m.

(** _update_type_tags.py:27-119 update_type_tags and the functions registered for singledispatch.  When, Forall
    and any other class have no registered function: NotImplementedError. *)
Fixpoint update_type_tags (m : tagmap) (f : form) : res form :=
  match f with
  | FPred n ts => let* ts' := mapR (replace_term m) ts in mk_pred n ts'
  | FEq l r => let* l' := replace_term m l in let* r' := replace_term m r in mk_eq l' r'
  | FNumFun n ts => let* ts' := mapR (replace_term m) ts in mk_numfun n ts'
  | FNumVal v => Ok (FNumVal v)
  | FBinFun k ops => let* ops' := mapR (update_type_tags m) ops in Ok (mk_binfun k ops')
  | FBin k ops => let* ops' := mapR (update_type_tags m) ops in Ok (mk_bin k ops')
  | FNot g => let* g' := update_type_tags m g in Ok (mk_not g')
  | FQuant q vs c =>
      let* c' := update_type_tags (bind_vars m vs) c in Ok (mk_quant q vs c')
  | FWhen _ _ => Err NotImplementedError
  | FForall _ _ => Err NotImplementedError
  end.
