(** Specification: which parsed files survive a formatter, i.e. print and parse again (C49).
    These are conditions on the parsed object; each names a construct that the library reads but
    cannot write back.  Nothing here models code. *)
From Coq Require Import String List Bool Arith ZArith.
From Verif Require Import Py Names Reqs Logic Validation Core Spec Spec_Print Spec_Numbers Spec_Domain.
Import ListNotations.
Open Scope string_scope.
Open Scope list_scope.

(** how many operands the grammar asks for.  The parser drops repeated operands and merges nested
    nodes of the same class, which can leave another number. *)
Definition arity_ok (k : bfun) (n : nat) : Prop :=
  match k with
  | BPlus | BTimes => 2 <= n
  | BDivide | BEqual => n = 2
  | _ => True
  end.
(** the arithmetic of a formula has these arities, and its quantifiers give each variable at most
    one type (never [(either a b)]) *)
Fixpoint writable (f : form) : Prop :=
  match f with
  | FPred _ _ | FEq _ _ | FNumFun _ _ | FNumVal _ => True
  | FBinFun k ops => arity_ok k (length ops) /\ fold_right (fun g p => writable g /\ p) True ops
  | FBin _ ops => fold_right (fun g p => writable g /\ p) True ops
  | FNot g => writable g
  | FQuant _ vs g => Forall one_type vs /\ writable g
  | FWhen g e => writable g /\ writable e
  | FForall vs e => Forall one_type vs /\ writable e
  end.

Definition writable_action (d : domain) (a : action) : Prop :=
  (forall v, In (TVar v) (a_params a) -> one_type v)
  /\ (forall p, a_pre a = Some p -> writable p
       (* not [()], which is read as an empty disjunction *)
       /\ (p = FBin OOr [] -> exists r, In r [DIS_PRECONDITION; ADL] /\ In r (extend_reqs (d_reqs d))))
  /\ (forall e, a_eff a = Some e -> writable e /\ e <> FBin OOr []).

Definition writable_derived (d : domain) (x : derived) : Prop :=
  NoDup (map t_name (dp_terms x))
  /\ (forall us ws, In (dp_name x, us) (d_predicates d) -> In (dp_name x, ws) (d_predicates d) -> us = ws)
  /\ writable (dp_cond x)
  (* its variables have the types of their quantifier, of the head, or none (C27) *)
  /\ (forall vs, dp_terms x = map TVar vs -> scoped (enter vs (fun _ => [])) (dp_cond x))
  /\ (forall v g, argument (TVar v) (dp_cond x) -> ~ In (v_name v, Some g) (d_constants d)).

Record writable_domain (d : domain) : Prop := mkWD {
  wd_supertypes : forall t p, In (t, Some p) (d_types d) -> In p (map fst (d_types d));
  wd_typing : d_types d <> [] -> typing_on (d_reqs d);
  wd_functions : forall f v, In f (d_functions d) -> In (TVar v) (snd (fst f)) -> one_type v;
  wd_derived : forall x, In x (d_derived d) -> writable_derived d x;
  wd_actions : forall a, In a (d_actions d) -> writable_action d a
}.

(** a problem: only the arithmetic of its goal and of its metric *)
Definition writable_problem (p : problem) : Prop :=
  writable (p_goal p)
  /\ forall m, p_metric p = Some m -> writable (me_expr m).
