(** Which steps of a plan can be grounded (C86): what the English says, without the code. *)
From Coq Require Import String List.
From Verif Require Import Py Names Logic Validation Core Built Spec Spec_Core Names_facts.
Import ListNotations.

(** a variable of the body that is the parameter [v]: the same name, the same types *)
Definition same_variable (v w : var) : Prop :=
  v_name v = v_name w /\ forall g, In g (v_tags v) <-> In g (v_tags w).

(** what a term of the body becomes when the parameters are replaced by the constants: the
    constant given for it if it is a parameter, itself otherwise *)
Inductive stands_for (params : list term) (cs : list const) : term -> term -> Prop :=
| SF_const n g : stands_for params cs (TConst n g) (TConst n g)
| SF_param i v w c : nth_error params i = Some (TVar v) -> nth_error cs i = Some c ->
    same_variable v w -> stands_for params cs (TVar w) (TConst (fst c) (snd c))
| SF_other w : (forall v, In (TVar v) params -> ~ same_variable v w) ->
    stands_for params cs (TVar w) (TVar w).

Definition in_body (a : action) (g : form) : Prop :=
  exists f, (a_pre a = Some f \/ a_eff a = Some f) /\ within g f.

(** the body has a predicate (or an equality of terms) in which, after the replacement, two terms
    have one name and different types *)
Definition clash (a : action) (cs : list const) : Prop :=
  exists g ts us, in_body a g
    /\ ((exists n, g = FPred n ts) \/ exists l r, g = FEq l r /\ ts = [l; r])
    /\ Forall2 (stands_for (a_params a) cs) ts us
    /\ exists t u, In t us /\ In u us /\ t_name t = t_name u /\ ~ (forall x, In x (t_tags t) <-> In x (t_tags u)).

(** the body has a conditional or a universal effect *)
Definition has_conditional (a : action) : Prop :=
  exists g, in_body a g /\ ((exists c e, g = FWhen c e) \/ exists vs e, g = FForall vs e).

(** an action made by the constructors, whose parameters are different variables *)
Definition proper_schema (a : action) : Prop :=
  (exists vs, a_params a = map TVar vs /\ NoDup (map v_name vs)) /\ legal_name (a_name a)
  /\ forall f, a_pre a = Some f \/ a_eff a = Some f -> built f.

(** grounding [a] with [cs] is possible *)
Definition can_ground (a : action) (cs : list const) : Prop :=
  length cs = length (a_params a) /\ ~ has_conditional a /\ ~ clash a cs.

(** what a step gives: [Action.instantiate] of the action of that name, [ValueError] if there is none *)
Definition step_gives (d : domain) (st : string * list const) (r : res action) : Prop :=
  (exists a, In a (d_actions d) /\ a_name a = fst st
     /\ r = action_instantiate a (map (fun c => TConst (fst c) (snd c)) (snd st)))
  \/ ((forall a, In a (d_actions d) -> a_name a <> fst st) /\ r = Err ValueError).
