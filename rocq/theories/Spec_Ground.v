(** Specification: effects, and those whose instances make the same changes.
    Nothing here uses the library's functions other than equality and [instantiate], about which
    the conditions speak. *)
From Coq Require Import String List Bool.
From Verif Require Import Py Names Logic Validation Core Spec Spec_Core Spec_Effect Built.
Import ListNotations.
Open Scope string_scope.
Open Scope list_scope.

(** effects as in PDDL *)
Inductive is_eff : form -> Prop :=
| E_add n ts : is_eff (FPred n ts)
| E_del n ts : is_eff (FNot (FPred n ts))
| E_num k w n ts x : assign_word k = Some w -> is_num x -> is_eff (FBinFun k [FNumFun n ts; x])
| E_and ops : Forall is_eff ops -> is_eff (FBin OAnd ops)
| E_oneof ops : Forall is_eff ops -> is_eff (FBin OOneOf ops)
| E_when c f : is_cond c -> is_eff f -> is_eff (FWhen c f)
| E_forall vs f : is_eff f -> is_eff (FForall vs f).

(** an effect of which two copies are not the same as one: it has a choice or adds up *)
Definition counting (f : form) : Prop :=
  exists g, within g f /\ ((exists ops, g = FBin OOneOf ops)
    \/ exists k ops, g = FBinFun k ops /\ In k [BIncrease; BDecrease; BScaleUp; BScaleDown]).
(** no two such effects that become equal are in one conjunction *)
Definition effects_kept (m : mapping) (f : form) : Prop :=
  forall ops ops', within (FBin OAnd ops) f -> mapR (instantiate m) ops = Ok ops' ->
    ForallOrdPairs (fun x y => form_eqb x y = true -> ~ counting x) ops'.

(** the conditions under which the instances of condition and effect of [a] with the constants
    [cs] mean what they should (C16): different parameters; occurrences have the types of the
    parameter; quantifiers do not bind a parameter again; no operand of a sum or conjunction is
    lost because it becomes equal to another one *)
Definition groundable (a : action) (cs : list const) : Prop :=
  let m := combine (a_params a) (map const_term cs) in
  (exists vs, a_params a = map TVar vs /\ NoDup (map v_name vs))
  /\ (forall f, a_pre a = Some f -> is_cond f /\ names_agree m f /\ no_capture m f /\ arith_kept m f)
  /\ (forall f, a_eff a = Some f ->
        is_eff f /\ built f /\ names_agree m f /\ arith_kept m f /\ effects_kept m f).
