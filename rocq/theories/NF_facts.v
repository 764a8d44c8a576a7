(** The normal form of built formulas, function nodes included. *)
From Coq Require Import String List Bool ZArith Lia.
From Verif Require Import Py Names Logic Built Py_facts Logic_facts Ops_facts Built_facts.
Import ListNotations.
Open Scope string_scope.
Open Scope list_scope.

(** the operand lists on which the constructor of class [c] changes nothing *)
Definition nfn (c : opcls) (ops : list form) : Prop :=
  match metaclass c with
  | None => True
  | Some true => Forall (fun g => ops_if c g = None) ops /\ NoDupE form_eqb ops /\ length ops <> 1
  | Some false => length ops <= 1
                  \/ (Forall (fun g => ops_if c g = None) ops /\ NoDupE form_eqb ops)
  end.

Fixpoint nff (f : form) : Prop :=
  match f with
  | FBinFun k ops => fold_right (fun g p => nff g /\ p) True ops /\ nfn (CFun k) ops
  | FBin k ops => fold_right (fun g p => nff g /\ p) True ops /\ nfn (CBin k) ops
  | FNot g => nff g
  | FQuant _ vs c => NoDupE var_eqb vs /\ nff c
  | FWhen c e => nff c /\ nff e
  | FForall vs e => NoDupE var_eqb vs /\ nff e
  | _ => True
  end.

Lemma leaves_no_ops c f : Forall (fun g => ops_if c g = None) (leaves c f).
Proof.
  induction f using form_ind'; try (constructor; [destruct c; reflexivity|constructor]).
  - simpl. destruct c as [k'|k']; simpl.
    + constructor; auto.
    + destruct (bfun_eqb k' k) eqn:K.
      * apply Forall_flat_map. auto.
      * constructor; auto. simpl. now rewrite K.
  - simpl. destruct c as [k'|k']; simpl.
    + destruct (bop_eqb k' k) eqn:K.
      * apply Forall_flat_map. auto.
      * constructor; auto. simpl. now rewrite K.
    + constructor; auto.
Qed.
Lemma flat_leaves_none c ops :
  Forall (fun g => ops_if c g = None) ops -> flat_map (leaves c) ops = ops.
Proof.
  induction 1; simpl; auto. rewrite IHForall, leaves_ops_if, H. reflexivity.
Qed.

Lemma nff_raw c ops : nff (raw_node c ops) <-> Forall nff ops /\ nfn c ops.
Proof. destruct c; simpl; now rewrite fold_and_Forall. Qed.
Lemma nff_ops c f ops : ops_if c f = Some ops -> nff f -> Forall nff ops.
Proof. intros O H. apply ops_if_raw in O. subst. now apply nff_raw in H. Qed.

Lemma nfn_dedup_leaves c ops :
  let out := dedup form_eqb (flat_map (leaves c) ops) in
  Forall (fun g => ops_if c g = None) out /\ NoDupE form_eqb out.
Proof.
  simpl. split.
  - apply Forall_dedup_sub, Forall_flat_map, Forall_forall. intros. apply leaves_no_ops.
  - apply dedup_NoDupE, form_eqb_equiv.
Qed.

Lemma mk_op_nff c ops : Forall nff ops -> nff (mk_op c ops).
Proof.
  intros F. unfold mk_op. destruct (metaclass c) as [idem|] eqn:M.
  2:{ apply nff_raw. unfold nfn. rewrite M. auto. }
  pose proof (simplify_P nff c idem ops (nff_ops c) F) as F'.
  rewrite simplify_spec in *.
  destruct (if idem then dedup form_eqb ops else ops) as [|x [|y l]].
  - apply nff_raw. split; auto. unfold nfn. rewrite M. destruct idem.
    + split; [constructor|split; [constructor|discriminate]].
    + left. simpl. lia.
  - destruct idem; [now inversion F'|]. apply nff_raw. split; auto.
    unfold nfn. rewrite M. left. simpl. lia.
  - destruct (nfn_dedup_leaves c (x :: y :: l)) as [N D].
    remember (dedup form_eqb (flat_map (leaves c) (x :: y :: l))) as out. clear Heqout.
    assert (R : length out <> 1 -> nff (raw_node c out)).
    { intros Hl. apply nff_raw. split; auto. unfold nfn. rewrite M. destruct idem; auto. }
    destruct out as [|a [|b m]]; try (apply R; discriminate).
    destruct idem; [now inversion F'|]. apply nff_raw. split; auto.
    unfold nfn. rewrite M. left. simpl. lia.
Qed.

Lemma built_nff f : built f -> nff f.
Proof.
  induction 1 using built_ind'.
  - apply mk_pred_Ok in H. now subst.
  - apply mk_eq_Ok in H. now subst.
  - apply mk_numfun_Ok in H. now subst.
  - exact I.
  - now apply (mk_op_nff (CFun k)).
  - now apply (mk_op_nff (CBin k)).
  - exact IHbuilt.
  - split; auto. apply dedup_NoDupE, var_eqb_equiv.
  - split; auto.
  - split; auto. apply dedup_NoDupE, var_eqb_equiv.
Qed.

(** the constructor applied to the operands of a normal node gives that node *)
Lemma mk_op_id c ops : nfn c ops -> mk_op c ops = raw_node c ops.
Proof.
  unfold nfn, mk_op. destruct (metaclass c) as [[]|] eqn:M; auto; rewrite simplify_spec.
  - intros (N & D & L). rewrite (dedup_id _ form_eqb_equiv _ D).
    destruct ops as [|x [|y l]]; auto; [simpl in L; lia|].
    rewrite flat_leaves_none by auto. rewrite (dedup_id _ form_eqb_equiv _ D). auto.
  - intros [L|[N D]].
    + destruct ops as [|x [|y l]]; auto. simpl in L; lia.
    + destruct ops as [|x [|y l]]; auto.
      rewrite flat_leaves_none by auto. rewrite (dedup_id _ form_eqb_equiv _ D). auto.
Qed.

(** a map on formulas that keeps the class of every node and identifies no two operands *)
Lemma nfn_map (T : form -> form) c ops :
  (forall g, In g ops -> ops_if c g = None -> ops_if c (T g) = None) ->
  (forall g h, In g ops -> In h ops -> form_eqb (T g) (T h) = true -> form_eqb g h = true) ->
  nfn c ops -> nfn c (map T ops).
Proof.
  intros O J.
  assert (NO : Forall (fun g => ops_if c g = None) ops ->
               Forall (fun g => ops_if c g = None) (map T ops)).
  { intros F. apply Forall_forall. intros x Hx. apply in_map_iff in Hx as (g & <- & Hg).
    rewrite Forall_forall in F. auto. }
  assert (ND : NoDupE form_eqb ops -> NoDupE form_eqb (map T ops)).
  { clear O NO. intros D. induction D as [|x l M D IH]; [constructor|]. simpl. constructor.
    - apply memb_false. intros y Hy. apply in_map_iff in Hy as (g & <- & Hg).
      destruct (form_eqb (T x) (T g)) eqn:Q; auto.
      apply J in Q; [|left; auto|right; auto]. rewrite memb_false in M. rewrite M in Q; auto.
    - apply IH. intros g h Hg Hh. apply J; right; auto. }
  unfold nfn. destruct (metaclass c) as [[]|]; auto; rewrite map_length; tauto.
Qed.
