(** Specification: the problems that PDDL text can express (C32).  Nothing here models code. *)
From Coq Require Import String List Bool Arith ZArith.
From Verif Require Import Py Names Reqs Logic Built Validation Core Parser Spec_Parse Spec_Numbers
  Spec_Text Names_facts.
Import ListNotations.
Open Scope string_scope.
Open Scope list_scope.

(** the same formula with its constants stripped of their types; == does not see the difference *)
Definition untyped_term (t : term) : term :=
  match t with TConst n _ => TConst n None | TVar v => TVar v end.
Fixpoint untyped (f : form) : form :=
  match f with
  | FPred n ts => FPred n (map untyped_term ts)
  | FEq l r => FEq (untyped_term l) (untyped_term r)
  | FNumFun n ts => FNumFun n (map untyped_term ts)
  | FNumVal v => FNumVal v
  | FBinFun k ops => FBinFun k (map untyped ops)
  | FBin k ops => FBin k (map untyped ops)
  | FNot g => FNot (untyped g)
  | FQuant q vs g => FQuant q vs (untyped g)
  | FWhen g e => FWhen (untyped g) (untyped e)
  | FForall vs e => FForall vs (untyped e)
  end.

(** goals: in the problem parser constants have no type and no requirement is declared, so that
    disjunctions, implications, quantifiers and equalities of terms are excluded *)
Definition goal_form (f : form) : Prop := condition problem_ctx (untyped f).

Definition ground (t : term) : Prop := exists n g, t = TConst n g /\ legal_name n.
Inductive init_form : form -> Prop :=
| I_atom n ts : legal_name n -> Forall ground ts -> init_form (FPred n ts)
| I_not n ts : legal_name n -> Forall ground ts -> init_form (FNot (FPred n ts))
| I_int n ts z : legal_function n -> Forall ground ts -> (0 <= z)%Z ->
    init_form (FBinFun BEqual [FNumFun n ts; FNumVal (NInt z)])
| I_dec n ts m e : legal_function n -> Forall ground ts -> (0 <= m)%Z ->
    init_form (FBinFun BEqual [FNumFun n ts; FNumVal (NDec m e)]).

(** metric expressions: numbers are kept as they are written *)
Inductive metric_form : form -> Prop :=
| M_fun n ts : legal_function n -> Forall ground ts -> metric_form (FNumFun n ts)
| M_num s : dotted s -> metric_form (FNumVal (NStr s))
| M_sum ops : 2 <= length ops -> Forall metric_form ops -> metric_form (FBinFun BPlus ops)
| M_product ops : 2 <= length ops -> Forall metric_form ops -> metric_form (FBinFun BTimes ops)
| M_quotient a b : metric_form a -> metric_form b -> metric_form (FBinFun BDivide [a; b])
| M_minus a : metric_form a -> metric_form (FBinFun BMinus [a]).

Record expressible_problem (p : problem) : Prop := mkEP {
  ep_reqs : ~ In OBJECT_FLUENTS (get_requirements p);
  ep_objects : forall n g, In (n, g) (p_objects p) ->
    legal_name n /\ (forall t, g = Some t -> legal_type t);
  ep_init : Forall init_form (p_init p);
  ep_goal : built (p_goal p) /\ goal_form (p_goal p);
  ep_metric : forall m, p_metric p = Some m ->
    In (me_opt m) ["maximize"; "minimize"] /\ built (me_expr m) /\ metric_form (me_expr m)
}.
