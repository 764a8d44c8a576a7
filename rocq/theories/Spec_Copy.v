(** Specification for C69: programs that make an object anew from the public attributes of another
    one, all the way down to its terms.  Nothing here models code: these are users of the API. *)
From Coq Require Import String List Bool.
From Verif Require Import Py Names Reqs Logic Validation Core Built.
Import ListNotations.
Open Scope list_scope.

(** Constant(t.name, t.type_tag), Variable(t.name, t.type_tags) *)
Definition copy_var (v : var) : res var := mk_var (v_name v) (CSet (v_tags v)).
Definition copy_term (t : term) : res term :=
  match t with
  | TConst n _ => let* g := type_tag t in mk_const n g
  | TVar v => let* v' := copy_var v in Ok (TVar v')
  end.

(** Predicate(p.name, terms), And(operands), ForallCondition(f.condition, f.variables), ... *)
Fixpoint copy (f : form) : res form :=
  match f with
  | FPred n ts => let* us := mapR copy_term ts in mk_pred n us
  | FEq l r => let* l' := copy_term l in let* r' := copy_term r in mk_eq l' r'
  | FNumFun n ts => let* us := mapR copy_term ts in mk_numfun n us
  | FNumVal v => Ok (FNumVal v)
  | FBinFun k ops => let* ops' := mapR copy ops in Ok (mk_binfun k ops')
  | FBin k ops => let* ops' := mapR copy ops in Ok (mk_bin k ops')
  | FNot g => let* g' := copy g in Ok (mk_not g')
  | FQuant q vs c => let* vs' := mapR copy_var vs in let* c' := copy c in Ok (mk_quant q vs' c')
  | FWhen c e => let* c' := copy c in let* e' := copy e in Ok (mk_when c' e')
  | FForall vs e => let* vs' := mapR copy_var vs in let* e' := copy e in Ok (mk_forall vs' e')
  end.
Definition copy_opt (o : option form) : res (option form) :=
  match o with Some f => let* f' := copy f in Ok (Some f') | None => Ok None end.

(** Action(a.name, a.parameters, a.precondition, a.effect) *)
Definition copy_action (a : action) : res action :=
  let* ps := mapR copy_term (a_params a) in
  let* p := copy_opt (a_pre a) in
  let* e := copy_opt (a_eff a) in
  mk_action (a_name a) ps p e.
(** DerivedPredicate(d.predicate, d.condition) *)
Definition copy_derived (d : derived) : res derived :=
  let* p := copy (dp_pred d) in
  let* c := copy (dp_cond d) in
  match p with FPred n ts => Ok (mkDerived n ts c) | _ => Err TypeError end.
(** Metric(m.expression, m.optimization) *)
Definition copy_metric (m : metric) : res metric :=
  let* e := copy (me_expr m) in mk_metric e (me_opt m).
Definition copy_const (c : const) : res const :=
  let* t := copy_term (const_term c) in
  match t with TConst n g => Ok (n, g) | _ => Err TypeError end.
Definition copy_predicate (p : atom) : res atom :=
  let* f := copy (FPred (fst p) (snd p)) in
  match f with FPred n ts => Ok (n, ts) | _ => Err TypeError end.
Definition copy_function (kv : atom * option string) : res (atom * option string) :=
  let* f := copy (FNumFun (fst (fst kv)) (snd (fst kv))) in
  match f with FNumFun n ts => Ok ((n, ts), snd kv) | _ => Err TypeError end.

(** Domain(d.name, d.requirements, d.types, d.constants, ...) *)
Definition copy_domain (d : domain) : res domain :=
  let* cs := mapR copy_const (d_constants d) in
  let* ps := mapR copy_predicate (d_predicates d) in
  let* dps := mapR copy_derived (d_derived d) in
  let* fs := mapR copy_function (d_functions d) in
  let* acts := mapR copy_action (d_actions d) in
  mk_domain (d_name d) (d_reqs d) (Some (d_types d)) cs ps dps fs acts.

(** Problem(p.name, domain=p.domain, domain_name=p.domain_name, requirements=p.requirements, ...),
    without [domain=] if the problem has no domain yet *)
Definition copy_problem (p : problem) : res problem :=
  let* objs := mapR copy_const (p_objects p) in
  let* init := mapR copy (p_init p) in
  let* goal := copy (p_goal p) in
  let* m := match p_metric p with Some m => let* m' := copy_metric m in Ok (Some m') | None => Ok None end in
  match get_domain p with
  | Ok d =>
      let* d' := copy_domain d in
      mk_problem (p_name p) (Some d') (Some (get_domain_name p)) (Some (get_requirements p)) objs init (Some goal) m
  | Err _ =>
      mk_problem (p_name p) None (Some (get_domain_name p)) (Some (get_requirements p)) objs init (Some goal) m
  end.

(** ** Objects made through the constructors *)
Definition made_var (v : var) : Prop := exists n c, mk_var n c = Ok v.
Definition made_term (t : term) : Prop :=
  match t with TConst _ _ => exists n g, mk_const n g = Ok t | TVar v => made_var v end.
Inductive made : form -> Prop :=
| Y_pred n ts f : Forall made_term ts -> mk_pred n ts = Ok f -> made f
| Y_eq l r f : made_term l -> made_term r -> mk_eq l r = Ok f -> made f
| Y_numfun n ts f : Forall made_term ts -> mk_numfun n ts = Ok f -> made f
| Y_numval v : made (FNumVal v)
| Y_binfun k ops : Forall made ops -> made (mk_binfun k ops)
| Y_bin k ops : Forall made ops -> made (mk_bin k ops)
| Y_not f : made f -> made (mk_not f)
| Y_quant q vs c : Forall made_var vs -> made c -> made (mk_quant q vs c)
| Y_when c e : made c -> made e -> made (mk_when c e)
| Y_forall vs e : Forall made_var vs -> made e -> made (mk_forall vs e).
Definition made_opt (o : option form) : Prop := forall f, o = Some f -> made f.
Definition made_action (a : action) : Prop :=
  exists n ps p e, mk_action n ps p e = Ok a /\ Forall made_term ps /\ made_opt p /\ made_opt e.
Definition made_derived (d : derived) : Prop := made (dp_pred d) /\ made (dp_cond d).
Definition made_metric (m : metric) : Prop :=
  exists e o, mk_metric e o = Ok m /\ made e.
Definition made_const (c : const) : Prop := made_term (const_term c).
Definition made_domain (d : domain) : Prop :=
  exists n rs ty cs ps dps fs acts, mk_domain n rs ty cs ps dps fs acts = Ok d /\
    Forall made_const cs /\ Forall (fun p => made (FPred (fst p) (snd p))) ps /\ Forall made_derived dps /\
    Forall (fun kv => made (FNumFun (fst (fst kv)) (snd (fst kv)))) fs /\ Forall made_action acts.
(** problems: constructed, and then given domains by successful assignments *)
Inductive made_problem : problem -> Prop :=
| YP_new n d dn rs objs init goal m p :
    (forall x, d = Some x -> made_domain x) -> Forall made_const objs -> Forall made init -> made_opt goal ->
    (forall x, m = Some x -> made_metric x) ->
    mk_problem n d dn rs objs init goal m = Ok p -> made_problem p
| YP_set p d p' : made_problem p -> made_domain d -> set_domain p d = (p', Ok tt) -> made_problem p'.

(** two problems show the same: every public attribute is the same *)
Definition shows_same (p q : problem) : Prop :=
  p_name q = p_name p /\ get_domain q = get_domain p /\ get_domain_name q = get_domain_name p /\
  get_requirements q = get_requirements p /\ p_objects q = p_objects p /\ p_init q = p_init p /\
  p_goal q = p_goal p /\ p_metric q = p_metric p.
(** the functions of a domain are the items of a dict *)
Fixpoint distinct_keys (l : functions_dict) : Prop :=
  match l with
  | [] => True
  | (k, _) :: r => memb atom_eqb k (map fst r) = false /\ distinct_keys r
  end.
Definition functions_dict_keys (d : domain) : Prop := distinct_keys (d_functions d).
