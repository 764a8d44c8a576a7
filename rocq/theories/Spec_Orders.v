(** Specification: the same objects with their sets iterated in another order.  In the model a set
    is the list of its elements in iteration order, which in Python depends on the hash seed.
    Nothing here models code. *)
From Coq Require Import String List Bool Permutation.
From Verif Require Import Names Reqs Logic Validation Core.
Import ListNotations.
Open Scope string_scope.
Open Scope list_scope.

(** a set whose elements are the same up to [R], in another order *)
Definition set_order {A} (R : A -> A -> Prop) (l m : list A) : Prop :=
  exists k, Forall2 R l k /\ Permutation k m.
Definition opt_order {A} (R : A -> A -> Prop) (o o' : option A) : Prop :=
  match o, o' with Some a, Some b => R a b | None, None => True | _, _ => False end.

(** the types of a variable are a set *)
Definition var_order (v w : var) : Prop :=
  v_name v = v_name w /\ Permutation (v_tags v) (v_tags w).
Definition term_order (t u : term) : Prop :=
  match t, u with
  | TConst n g, TConst n' g' => n = n' /\ g = g'
  | TVar v, TVar w => var_order v w
  | _, _ => False
  end.
(** the variables of a quantifier are a set *)
Inductive form_order : form -> form -> Prop :=
| FO_pred n ts us : Forall2 term_order ts us -> form_order (FPred n ts) (FPred n us)
| FO_eq l r l' r' : term_order l l' -> term_order r r' -> form_order (FEq l r) (FEq l' r')
| FO_numfun n ts us : Forall2 term_order ts us -> form_order (FNumFun n ts) (FNumFun n us)
| FO_numval v : form_order (FNumVal v) (FNumVal v)
| FO_binfun k l m : Forall2 form_order l m -> form_order (FBinFun k l) (FBinFun k m)
| FO_bin k l m : Forall2 form_order l m -> form_order (FBin k l) (FBin k m)
| FO_not f g : form_order f g -> form_order (FNot f) (FNot g)
| FO_quant q vs ws f g : set_order var_order vs ws -> form_order f g ->
    form_order (FQuant q vs f) (FQuant q ws g)
| FO_when c c' f g : form_order c c' -> form_order f g -> form_order (FWhen c f) (FWhen c' g)
| FO_forall vs ws f g : set_order var_order vs ws -> form_order f g ->
    form_order (FForall vs f) (FForall ws g).

Definition atom_order (a b : atom) : Prop := fst a = fst b /\ Forall2 term_order (snd a) (snd b).
Definition action_order (a b : action) : Prop :=
  a_name a = a_name b /\ Forall2 term_order (a_params a) (a_params b)
  /\ opt_order form_order (a_pre a) (a_pre b) /\ opt_order form_order (a_eff a) (a_eff b).
Definition derived_order (a b : derived) : Prop :=
  dp_name a = dp_name b /\ Forall2 term_order (dp_terms a) (dp_terms b)
  /\ form_order (dp_cond a) (dp_cond b).
(** dicts keep their order *)
Record domain_order (d d' : domain) : Prop := mkDO {
  do_name : d_name d = d_name d';
  do_reqs : Permutation (d_reqs d) (d_reqs d');
  do_types : d_types d = d_types d';
  do_constants : Permutation (d_constants d) (d_constants d');
  do_predicates : set_order atom_order (d_predicates d) (d_predicates d');
  do_derived : set_order derived_order (d_derived d) (d_derived d');
  do_functions : Forall2 (fun f g => atom_order (fst f) (fst g) /\ snd f = snd g)
                   (d_functions d) (d_functions d');
  do_actions : set_order action_order (d_actions d) (d_actions d')
}.

(** no quantifier has both typed and untyped variables *)
Definition unmixed (vs : list var) : Prop :=
  (forall v, In v vs -> v_tags v = []) \/ (forall v, In v vs -> v_tags v <> []).
Fixpoint never_mixed (f : form) : Prop :=
  match f with
  | FPred _ _ | FEq _ _ | FNumFun _ _ | FNumVal _ => True
  | FBinFun _ ops | FBin _ ops => fold_right (fun g p => never_mixed g /\ p) True ops
  | FNot g => never_mixed g
  | FQuant _ vs g => unmixed vs /\ never_mixed g
  | FWhen c e => never_mixed c /\ never_mixed e
  | FForall vs e => unmixed vs /\ never_mixed e
  end.
Definition never_mixed_domain (d : domain) : Prop :=
  (forall a f, In a (d_actions d) -> a_pre a = Some f \/ a_eff a = Some f -> never_mixed f)
  /\ (forall x, In x (d_derived d) -> never_mixed (dp_cond x)).

Definition metric_order (m m' : metric) : Prop :=
  me_opt m = me_opt m' /\ form_order (me_expr m) (me_expr m').
(** the same problem (without a domain object) *)
Record problem_order (p p' : problem) : Prop := mkPO {
  po_name : p_name p = p_name p';
  po_domain : p_domain p = None /\ p_domain p' = None;
  po_domain_name : p_domain_name p = p_domain_name p';
  po_reqs : opt_order (@Permutation req) (p_reqs p) (p_reqs p');
  po_objects : Permutation (p_objects p) (p_objects p');
  po_init : set_order form_order (p_init p) (p_init p');
  po_goal : form_order (p_goal p) (p_goal p');
  po_metric : opt_order metric_order (p_metric p) (p_metric p')
}.
