(** Specification: executing a plan.  Nothing here uses the library's functions. *)
From Coq Require Import String List Bool QArith.
From Verif Require Import Names Reqs Logic Validation Core Sem Spec_Effect.
Import ListNotations.
Open Scope string_scope.
Open Scope list_scope.
Close Scope Q_scope.

(** the state [I] with other facts *)
Definition with_facts (I : interp) (P : string -> list (obj I) -> Prop) : interp :=
  {| obj := obj I; i_const := i_const I; i_pred := P; i_func := i_func I; i_type := i_type I |}.

(** [P] contains the facts of [I] and is closed under the derived predicates [ds] *)
Definition closed (ds : list derived) (I : interp) (P : string -> list (obj I) -> Prop) : Prop :=
  (forall n os, i_pred I n os -> P n os)
  /\ forall r e, In r ds ->
       (forall v, In (TVar v) (dp_terms r) -> fits I v (e (v_name v))) ->
       holds (with_facts I P) e (dp_cond r) -> P (dp_name r) (map (den I e) (dp_terms r)).
(** [J] is the state [I] completed by the derived facts: those in every closed set *)
Definition completed (ds : list derived) (I J : interp) : Prop :=
  exists P, J = with_facts I P /\ forall n os, P n os <-> forall R, closed ds I R -> R n os.

(** a missing precondition is true, a missing effect changes nothing *)
Definition condition (J : interp) (e : env J) (o : option form) : Prop :=
  match o with Some p => holds J e p | None => True end.
Definition effect (J : interp) (e : env J) (o : option form) (D : changes J) : Prop :=
  match o with Some f => outcome J e f D | None => nothing J D end.

(** [e] gives the parameters [ts] the objects called [cs] *)
Definition gives (J : interp) (e : env J) (ts : list term) (cs : list const) : Prop :=
  Forall2 (fun t c => exists v, t = TVar v /\ e (v_name v) = i_const J (fst c)) ts cs.

Section Execute.
  (** how changes are carried out: from [I], completed to [J], the changes [D] lead to [I'].  All
      theorems are about every such relation. *)
  Variable next : forall I J : interp, changes J -> interp -> Prop.

  (** one step of a plan leads from [I] to [I'] *)
  Definition executes (d : domain) (I : interp) (st : string * list const) (I' : interp) : Prop :=
    exists a J e D, In a (d_actions d) /\ a_name a = fst st
      /\ completed (d_derived d) I J /\ gives J e (a_params a) (snd st)
      /\ condition J e (a_pre a) /\ effect J e (a_eff a) D /\ next I J D I'.
  (** all steps of a plan, one after the other *)
  Inductive runs (d : domain) : interp -> plan -> interp -> Prop :=
  | run_end I : runs d I [] I
  | run_step I st I' pl I'' : executes d I st I' -> runs d I' pl I'' -> runs d I (st :: pl) I''.

  (** the same with ground actions *)
  Definition acts (ds : list derived) (I : interp) (a : action) (I' : interp) : Prop :=
    exists J e D, completed ds I J /\ condition J e (a_pre a) /\ effect J e (a_eff a) D
      /\ next I J D I'.
  Inductive acts_all (ds : list derived) : interp -> list action -> interp -> Prop :=
  | acts_end I : acts_all ds I [] I
  | acts_step I a I' l I'' : acts ds I a I' -> acts_all ds I' l I'' -> acts_all ds I (a :: l) I''.

  (** the goal holds *)
  Definition reached (d : domain) (p : problem) (I : interp) : Prop :=
    exists J, completed (d_derived d) I J /\ forall e, holds J e (p_goal p).
  (** the listed facts are the true ones, the listed values those of the functions *)
  Definition starts (p : problem) (I : interp) : Prop :=
    (forall n os, i_pred I n os <-> exists cs,
       In (FPred n (map const_term cs)) (p_init p) /\ os = map (fun c => i_const I (fst c)) cs)
    /\ (forall n cs v,
       In (FBinFun BEqual [FNumFun n (map const_term cs); FNumVal v]) (p_init p) ->
       (i_func I n (map (fun c => i_const I (fst c)) cs) == num_q v)%Q).
  (** the arguments of the steps have the types of the parameters *)
  Definition fitting (d : domain) (I : interp) (pl : plan) : Prop :=
    forall st, In st pl -> exists a, In a (d_actions d) /\ a_name a = fst st
      /\ Forall2 (fun t c => exists v, t = TVar v /\ fits I v (i_const I (fst c)))
           (a_params a) (snd st).
  (** the plan leads from the initial state [I] to a state in which the goal holds *)
  Definition solves (d : domain) (p : problem) (I : interp) (pl : plan) : Prop :=
    starts p I /\ fitting d I pl /\ exists I', runs d I pl I' /\ reached d p I'.
End Execute.

(** [g] is a type of the things declared with type [o]: the type itself or a supertype; object is
    a type of all *)
Inductive type_of (ty : types_dict) : option string -> string -> Prop :=
| ty_object o : type_of ty o "object"
| ty_self g : type_of ty (Some g) g
| ty_super g h k : In (g, Some h) ty -> type_of ty (Some h) k -> type_of ty (Some g) k.
(** the objects of [I] have the types declared in the domain and the problem *)
Definition typed (d : domain) (p : problem) (I : interp) : Prop :=
  forall g o, i_type I g o <-> exists c, (In c (d_constants d) \/ In c (p_objects p))
    /\ o = i_const I (fst c) /\ type_of (d_types d) (snd c) g.
