(** C57: replacing terms in two steps. *)
From Coq Require Import String List Bool.
From Verif Require Import Py Names Logic Validation Core Spec Spec_Core Spec_Subst Built Py_facts Logic_facts Built_facts Core_facts Compose_facts Inst_facts.
Import ListNotations.
Open Scope string_scope.
Open Scope list_scope.

(** * C57 *)

(** When the first step and the direct replacement are defined, so is the second step, and its
    result is the direct one - identical, not only equal. *)
Theorem C57_steps_partial : forall m1 m2 m f f1 g, is_dict m1 -> is_dict m2 -> is_dict m ->
  numeric_nodes f -> first_then m1 m2 m f ->
  instantiate m1 f = Ok f1 -> instantiate m f = Ok g -> instantiate m2 f1 = Ok g.
Proof. exact steps_image. Qed.
Print Assumptions C57_steps_partial.

(** All three are defined when the terms that replace the old ones have one type per name. *)
Theorem C57_defined_partial : forall m1 m2 m f, is_dict m1 -> is_dict m2 -> is_dict m ->
  built f -> plain f -> numeric_nodes f -> first_then m1 m2 m f ->
  consistent (images m1 f) -> consistent (images m f) ->
  exists f1 g, instantiate m1 f = Ok f1 /\ instantiate m2 f1 = Ok g /\ instantiate m f = Ok g.
Proof.
  intros m1 m2 m f D1 D2 D B P N H C1 C.
  destruct (instantiate_Ok m1 f B P (images_family _ _ D1 C1)) as (f1 & E1).
  destruct (instantiate_Ok m f B P (images_family _ _ D C)) as (g & E).
  exists f1, g. split; auto. split; auto. exact (steps_image m1 m2 m f f1 g D1 D2 D N H E1 E).
Qed.
Print Assumptions C57_defined_partial.

(** A mapping of variables that do not occur changes nothing. *)
Theorem C57_nothing : forall m f, built f -> plain f ->
  (forall v k u, argument (TVar v) f -> In (k, u) m -> term_eqb (TVar v) k = false) ->
  instantiate m f = Ok f.
Proof.
  intros m f B P H. apply inst_same; auto. intros v A. apply memb_false. intros k K.
  apply in_map_iff in K as ([k' u] & <- & K). exact (H v k' u A K).
Qed.
Print Assumptions C57_nothing.

(** Renaming the parameters of an action to fresh variables first does not change its instances. *)
Theorem C57_renamed_partial : forall a ws ts a1 a',
  (forall f, a_pre a = Some f \/ a_eff a = Some f -> numeric_nodes f) -> fresh_for a ws ->
  action_instantiate a (map TVar ws) = Ok a1 -> action_instantiate a ts = Ok a' ->
  action_instantiate a1 ts = Ok a'.
Proof. exact rename_action. Qed.
Print Assumptions C57_renamed_partial.

(** Without the condition on the direct replacement it is false: the first step can drop an operand
    for which the direct replacement raises, because constants are compared by name only. *)
Definition vx := mkVar "x" []. Definition vy := mkVar "y" []. Definition vz := mkVar "z" [].
Definition both : form := FBin OAnd [FPred "p" [TVar vx; TVar vz]; FPred "p" [TVar vy; TVar vz]].
Lemma both_built : built both.
Proof.
  apply (B_bin OAnd [FPred "p" [TVar vx; TVar vz]; FPred "p" [TVar vy; TVar vz]]). repeat constructor.
  - apply (B_pred "p" [TVar vx; TVar vz]). reflexivity.
  - apply (B_pred "p" [TVar vy; TVar vz]). reflexivity.
Qed.
Ltac hunt := repeat (match goal with
  | H : In _ [] |- _ => destruct H
  | H : In _ (_ :: _) |- _ => destruct H as [H|H]; [try discriminate H; try (injection H as <-); subst|]
  | H : argument _ _ |- _ => inversion H; subst; clear H
  | H : within _ _ |- _ => inversion H; subst; clear H
  end).
Lemma both_numeric : numeric_nodes both.
Proof. intros k ops g W _. exfalso. unfold both in W. hunt. Qed.
Lemma both_steps m1 m2 m : is_dict m1 -> is_dict m2 -> is_dict m ->
  (forall v, In v [vx; vy; vz] -> inst_term m (TVar v) = inst_term m2 (inst_term m1 (TVar v))) -> first_then m1 m2 m both.
Proof.
  intros D1 D2 D H t u w A I1 I2. apply image_inst in I1; auto. apply image_inst in I2; auto. subst. apply image_inst; auto. symmetry.
  unfold both in A. hunt; apply H; cbn; auto.
Qed.
Theorem C57_refuted : ~ (forall m1 m2 m f f1 g, is_dict m1 -> is_dict m2 -> is_dict m -> built f -> numeric_nodes f ->
  first_then m1 m2 m f -> instantiate m1 f = Ok f1 -> instantiate m2 f1 = Ok g -> instantiate m f = Ok g).
Proof.
  intros H. pose (c := TConst "c" (Some "t")). pose (c' := TConst "c" (Some "u")).
  pose (m1 := [(TVar vx, c); (TVar vy, c')]). pose (m2 := [(TVar vz, c)]).
  pose (m := [(TVar vx, c); (TVar vy, c'); (TVar vz, c)]).
  assert (X : instantiate m both = Ok (FPred "p" [c; c])); [|vm_compute in X; discriminate X].
  apply (H m1 m2 m both (FPred "p" [c; TVar vz]) (FPred "p" [c; c])); try reflexivity.
  - repeat constructor.
  - repeat constructor.
  - repeat constructor.
  - exact both_built.
  - exact both_numeric.
  - apply both_steps; try (repeat constructor). intros v [<-|[<-|[<-|[]]]]; reflexivity.
Qed.
Print Assumptions C57_refuted.
(** ... and the first step can raise where the direct replacement is fine *)
Theorem C57_refuted_first : ~ (forall m1 m2 m f g, is_dict m1 -> is_dict m2 -> is_dict m -> built f -> numeric_nodes f ->
  first_then m1 m2 m f -> instantiate m f = Ok g -> exists f1, instantiate m1 f = Ok f1).
Proof.
  intros H. pose (z := TVar (mkVar "z" ["t"])). pose (c := TConst "c" None).
  destruct (H [(TVar vx, z)] [(z, c); (TVar vz, c)] [(TVar vx, c); (TVar vz, c)] both (mk_and [FPred "p" [c; c]; FPred "p" [TVar vy; c]])) as (f1 & X).
  - repeat constructor.
  - repeat constructor.
  - repeat constructor.
  - exact both_built.
  - exact both_numeric.
  - apply both_steps; try (repeat constructor). intros v [<-|[<-|[<-|[]]]]; reflexivity.
  - reflexivity.
  - vm_compute in X. discriminate X.
Qed.
Print Assumptions C57_refuted_first.

(** two steps and one, for [and (p ?x ?z) (p ?y ?z)]: the second step unites the operands *)
Example C57_ex :
  let a := TConst "a" None in
  let m1 := [(TVar vx, TVar vy)] in let m2 := [(TVar vy, a)] in let m := [(TVar vx, a); (TVar vy, a)] in
  is_dict m1 /\ is_dict m2 /\ is_dict m /\ built both /\ plain both /\ numeric_nodes both /\ first_then m1 m2 m both
  /\ consistent (images m1 both) /\ consistent (images m both)
  /\ instantiate m1 both = Ok (FPred "p" [TVar vy; TVar vz]) /\ instantiate m both = Ok (FPred "p" [a; TVar vz]).
Proof.
  cbv zeta. split; [repeat constructor|]. split; [repeat constructor|]. split; [repeat constructor|].
  split; [exact both_built|]. split; [cbn; auto|]. split; [exact both_numeric|].
  split; [apply both_steps; try (repeat constructor); intros v [<-|[<-|[<-|[]]]]; reflexivity|].
  assert (C : forall m, (forall v, In v [vx; vy; vz] -> t_tags (inst_term m (TVar v)) = []) -> is_dict m -> consistent (images m both)).
  { intros m H D. assert (T : forall u, images m both u -> t_tags u = []).
    { intros u (t & A & I). apply image_inst in I; auto. subst. unfold both in A. hunt; apply H; cbn; auto. }
    intros u w Hu Hw _ g. rewrite (T u Hu), (T w Hw). tauto. }
  split; [apply C; [intros v [<-|[<-|[<-|[]]]]; reflexivity|repeat constructor]|].
  split; [apply C; [intros v [<-|[<-|[<-|[]]]]; reflexivity|repeat constructor]|].
  split; reflexivity.
Qed.
(** renaming ?x to ?w and then grounding *)
Example C57_renamed_ex :
  let a := mkAction "go" [TVar vx; TVar vy] (Some both) (Some (FNot (FPred "p" [TVar vx; TVar vz]))) in
  let ws := [mkVar "w" []; mkVar "v" []] in
  let ts := [TConst "a" None; TConst "b" None] in
  fresh_for a ws /\ (exists a1, action_instantiate a (map TVar ws) = Ok a1) /\ (exists a', action_instantiate a ts = Ok a').
Proof.
  cbv zeta. split; [|split; eexists; vm_compute; reflexivity]. split; [repeat constructor|].
  intros v w f Hw Hf A. unfold both in Hf. cbn in Hf. destruct Hf as [[= <-]|[= <-]]; hunt; reflexivity.
Qed.
