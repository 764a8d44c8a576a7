(** Specification: which operands a node built from given operands has (C46).  Nothing here models
    code. *)
From Coq Require Import String List Bool.
From Verif Require Import Logic.
Import ListNotations.
Open Scope list_scope.

(** the formula written out as a list: the members of a conjunction (disjunction) [k] are the
    members of its operands, from left to right; anything else is its own only member *)
Inductive members (k : bop) : form -> list form -> Prop :=
| M_node ops ls : Forall2 (members k) ops ls -> members k (FBin k ops) (concat ls)
| M_leaf f : (forall ops, f <> FBin k ops) -> members k f [f].
(** the same for numeric expressions *)
Inductive fmembers (k : bfun) : form -> list form -> Prop :=
| FM_node ops ls : Forall2 (fmembers k) ops ls -> fmembers k (FBinFun k ops) (concat ls)
| FM_leaf f : (forall ops, f <> FBinFun k ops) -> fmembers k f [f].

(** [firsts seen l out]: [out] is [l] without the elements that are equal to an earlier one or to
    one of [seen] *)
Inductive firsts : list form -> list form -> list form -> Prop :=
| F_nil seen : firsts seen [] []
| F_new seen x l out :
    (forall y, In y seen -> form_eqb y x = false) -> firsts (x :: seen) l out ->
    firsts seen (x :: l) (x :: out)
| F_again seen x y l out :
    In y seen -> form_eqb y x = true -> firsts seen l out -> firsts seen (x :: l) out.
Definition distinct_members (l out : list form) : Prop := firsts [] l out.

(** the classes that rewrite their operands *)
Definition merging : list bfun := [BEqual; BMinus; BPlus; BTimes; BDivide].
