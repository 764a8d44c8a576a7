(** Property theorems: the operands of built nodes. *)
From Coq Require Import String List Bool.
From Verif Require Import Py Names Logic Built Spec_Ops Kept_facts.
Import ListNotations.
Open Scope string_scope.
Open Scope list_scope.

(** * C46 *)
(** And / Or: the operands are the members of the given ones, the first of equal ones, in order;
    a single one is returned itself *)
Theorem C46_and_or : forall k ops ls l, k = OAnd \/ k = OOr -> Forall built ops ->
  Forall2 (members k) ops ls -> distinct_members (concat ls) l ->
  mk_bin k ops = match l with [x] => x | _ => FBin k l end.
Proof. exact bin_operands. Qed.
Print Assumptions C46_and_or.
(** ... and the members exist for all operands *)
Theorem C46_members : forall k ops, exists ls l,
  Forall2 (members k) ops ls /\ distinct_members (concat ls) l.
Proof. exact bin_operands_exist. Qed.
Print Assumptions C46_members.
(** = and arithmetic on other than one operand *)
Theorem C46_arithmetic : forall k ops ls l, In k merging -> length ops <> 1 ->
  Forall2 (fmembers k) ops ls -> distinct_members (concat ls) l ->
  mk_binfun k ops = FBinFun k l.
Proof. exact binfun_operands. Qed.
Print Assumptions C46_arithmetic.
Theorem C46_fmembers : forall k ops, exists ls l,
  Forall2 (fmembers k) ops ls /\ distinct_members (concat ls) l.
Proof. exact binfun_operands_exist. Qed.
Print Assumptions C46_fmembers.
(** every numeric class keeps a single operand *)
Theorem C46_single : forall k x, mk_binfun k [x] = FBinFun k [x].
Proof. exact binfun_single. Qed.
Print Assumptions C46_single.
(** OneOf, Imply, order comparisons and assignments keep exactly what they are given *)
Theorem C46_others : (forall k ops, k = OOneOf \/ k = OImply -> mk_bin k ops = FBin k ops) /\
  (forall k ops, ~ In k merging -> mk_binfun k ops = FBinFun k ops).
Proof. exact other_operands. Qed.
Print Assumptions C46_others.

Example C46_ex :
  let p := FPred "p" [] in let q := FPred "q" [] in let r := FPred "r" [] in
  mk_and [r; mk_and [q; mk_or [p; q]]; q; p; r] = FBin OAnd [r; q; FBin OOr [p; q]; p]
  /\ mk_bin OOneOf [p; FBin OOneOf [p; q]; p] = FBin OOneOf [p; FBin OOneOf [p; q]; p]
  /\ let x := FNumFun "x" [] in let y := FNumFun "y" [] in
     mk_binfun BPlus [y; mk_binfun BPlus [x; y]; x] = FBinFun BPlus [y; x]
     /\ mk_binfun BIncrease [x; x] = FBinFun BIncrease [x; x].
Proof. vm_compute. auto. Qed.
