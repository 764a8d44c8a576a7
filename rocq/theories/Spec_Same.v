(** Specification: when the text of equal objects is determined (C29).  Nothing here models code. *)
From Coq Require Import String List Bool.
From Verif Require Import Py Names Reqs Logic Validation Core Spec_Print.
Import ListNotations.
Open Scope string_scope.
Open Scope list_scope.

(** the numbers written in a formula *)
Fixpoint numbers (f : form) : list num :=
  match f with
  | FPred _ _ | FEq _ _ | FNumFun _ _ => []
  | FNumVal v => [v]
  | FBinFun _ ops | FBin _ ops => flat_map numbers ops
  | FNot g => numbers g
  | FQuant _ _ g => numbers g
  | FWhen c e => numbers c ++ numbers e
  | FForall _ e => numbers e
  end.
(** no number is an int on one side and a float on the other *)
Definition is_float (v : num) : bool := match v with NDec _ _ => true | _ => false end.
Definition same_numbers (xs ys : list num) : Prop :=
  forall x y, In x xs -> In y ys -> num_eqb x y = true -> is_float x = is_float y.

(** every quantifier binds at most one variable, of at most one type *)
Definition single (vs : list var) : Prop := (length vs <= 1)%nat /\ Forall one_type vs.
Fixpoint settled (f : form) : Prop :=
  match f with
  | FPred _ _ | FEq _ _ | FNumFun _ _ | FNumVal _ => True
  | FBinFun _ ops | FBin _ ops => fold_right (fun g p => settled g /\ p) True ops
  | FNot g => settled g
  | FQuant _ vs g => single vs /\ settled g
  | FWhen c e => settled c /\ settled e
  | FForall vs e => single vs /\ settled e
  end.

(** the declarations only have variables *)
Definition some_var (t : term) : Prop := exists v, t = TVar v /\ NoDup (v_tags v).
Definition typed_var (t : term) : Prop := exists v, t = TVar v /\ one_type v.

Definition opt_forms (o : option form) : list form := match o with Some f => [f] | None => [] end.
Definition action_forms (a : action) : list form := opt_forms (a_pre a) ++ opt_forms (a_eff a).
Definition domain_forms (d : domain) : list form :=
  map dp_cond (d_derived d) ++ flat_map action_forms (d_actions d).
Definition problem_forms (p : problem) : list form :=
  p_init p ++ p_goal p :: match p_metric p with Some m => [me_expr m] | None => [] end.

Record settled_domain (d : domain) : Prop := mkSD {
  sd_predicates : forall p, In p (d_predicates d) -> Forall some_var (snd p);
  sd_functions : forall f, In f (d_functions d) -> Forall some_var (snd (fst f));
  sd_heads : forall x, In x (d_derived d) -> Forall some_var (dp_terms x);
  sd_params : forall a, In a (d_actions d) -> Forall typed_var (a_params a);
  sd_forms : Forall settled (domain_forms d)
}.
