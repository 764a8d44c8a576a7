(** Specification: replacing terms in one step and in two.
    Nothing here uses the library's functions other than its equality of terms. *)
From Coq Require Import String List Bool.
From Verif Require Import Py Logic Validation Spec Spec_Core.
Import ListNotations.

(** a Python dictionary: no two keys are equal *)
Definition is_dict (m : mapping) : Prop := ForallOrdPairs (fun a b => term_eqb (fst a) (fst b) = false) m.

(** the term that replaces [t] under the mapping [m] *)
Inductive image (m : mapping) : term -> term -> Prop :=
| Im_const n g : image m (TConst n g) (TConst n g)
| Im_key v k u : In (k, u) m -> term_eqb (TVar v) k = true -> image m (TVar v) u
| Im_other v : (forall k u, In (k, u) m -> term_eqb (TVar v) k = false) -> image m (TVar v) (TVar v).

(** on the terms of [f], [m] does what [m1] followed by [m2] does *)
Definition first_then (m1 m2 m : mapping) (f : form) : Prop :=
  forall t u w, argument t f -> image m1 t u -> image m2 u w -> image m t w.

(** the operands of +, -, *, /, comparisons and assignments are numeric expressions, as everywhere in PDDL *)
Definition numeric_nodes (f : form) : Prop := forall k ops g, within (FBinFun k ops) f -> In g ops -> is_num g.

(** the terms of [f] after replacement *)
Definition images (m : mapping) (f : form) (u : term) : Prop := exists t, argument t f /\ image m t u.

(** the variables [ws] are pairwise different and do not occur in the body of [a] *)
Definition fresh_for (a : action) (ws : list var) : Prop :=
  ForallOrdPairs (fun v w => var_eqb v w = false) ws
  /\ forall v w f, In w ws -> a_pre a = Some f \/ a_eff a = Some f -> argument (TVar v) f -> var_eqb v w = false.
