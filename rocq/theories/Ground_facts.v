(** Instances of effects make the changes of the effect. *)
From Coq Require Import String List Bool Arith QArith Lia.
From Verif Require Import Py Names Logic Validation Core Sem Spec Spec_Core Spec_Effect Spec_Ground Spec_Execute Built.
From Verif Require Import Py_facts Logic_facts Names_facts Ops_facts Built_facts Effect_facts Inst_facts.
Import ListNotations.
Open Scope string_scope.
Open Scope list_scope.
Open Scope nat_scope.

Lemma F2_In_r {A B} (R : A -> B -> Prop) l m y : Forall2 R l m -> In y m -> exists x, In x l /\ R x y.
Proof. induction 1 as [|a b l m H F IH]; [contradiction|]. intros [<-|K]; [exists a; cbn; auto|]. destruct (IH K) as (x & ? & ?). exists x. cbn. auto. Qed.
Lemma F2_In_l {A B} (R : A -> B -> Prop) l m x : Forall2 R l m -> In x l -> exists y, In y m /\ R x y.
Proof. induction 1 as [|a b l m H F IH]; [contradiction|]. intros [<-|K]; [exists b; cbn; auto|]. destruct (IH K) as (y & ? & ?). exists y. cbn. auto. Qed.
Lemma Ok_eq {A} (a b : A) : Ok a = Ok b -> a = b.
Proof. now intros [= ->]. Qed.
Section Ground.
  Variable I : interp.
  Lemma counting_in f ops k : In f ops -> counting f -> counting (FBin k ops).
  Proof. intros H (g & W & X). exists g. split; auto. eapply W_bin; eauto. Qed.
  Lemma outcome_simple f : ~ counting f -> forall e, simple I e f.
  Proof.
    induction f using form_ind'; intros N e D E HD HE; try (now inversion HD).
    - inversion HD; subst; inversion HE; subst.
      split; [eapply once_unique; eauto; reflexivity|eapply once_flat; eauto].
    - inversion HD as [| |k0 w n ts x D0 W O| | | |]; subst. inversion HE as [| |k1 w1 n1 ts1 x1 D1 W1 O1| | | |]; subst.
      rewrite W in W1. injection W1 as <-.
      assert (K : k = BAssign).
      { destruct k; cbn in W; try discriminate; auto; exfalso; apply N; eexists; (split; [constructor|right; do 2 eexists; split; [reflexivity|cbn; tauto]]). }
      subst k. cbn in W. injection W as <-.
      split; [eapply once_unique; eauto; cbn; repeat split; reflexivity|eapply once_flat; eauto].
    - inversion HD as [| | |ops0 Ds D0 F1 T1| | |ops0 f0 D0 Hf O]; subst.
      + inversion HE as [| | |ops1 Es E0 F2 T2| | |]; subst.
        assert (X : Forall (fun f => forall D E, outcome I e f D -> outcome I e f E -> same_changes I D E /\ flat I D) ops).
        { rewrite Forall_forall in *. intros f Hf. apply H; auto. intros C. apply N. eapply counting_in; eauto. }
        pose proof (Forall2_and _ _ _ _ _ X F1 F2) as F. split.
        * eapply together_unique; [|eassumption|eassumption]. clear - F. induction F as [|? ? ? ? [? _]]; constructor; auto.
        * eapply together_flat; [|eassumption]. clear - F. induction F as [|? ? ? ? [_ ?]]; constructor; auto.
      + exfalso. apply N. eexists. split; [constructor|left; eauto].
    - inversion HD; subst. inversion HE; subst.
      split; [eapply once_unique; eauto; reflexivity|eapply once_flat; eauto].
    - inversion HD as [| | | |c f0 E1 D0 O1 P1| |]; subst. inversion HE as [| | | |c2 f3 E2 D2 O2 P2| |]; subst.
      assert (N2 : ~ counting f2) by (intros (g & W & X); apply N; exists g; split; [now apply W_when_e|auto]).
      destruct (IHf2 N2 e E1 E2 O1 O2) as [S1 S2]. split.
      + intros c k. rewrite (P1 c k), (P2 c k), (S1 c k). reflexivity.
      + intros c k K. apply P1 in K as [->|[_ K]]; [now left|now apply S2].
    - inversion HD as [| | | | |vs0 f0 F1 D1 B1 R1 V1|]; subst. inversion HE as [| | | | |vs2 f2 F2 D2 B2 R2 V2|]; subst.
      assert (N2 : ~ counting f) by (intros (g & W & X); apply N; exists g; split; [now apply W_forall|auto]).
      split.
      + eapply (everywhere_unique _ _ F1 F2); [|exact V1|exact V2]. intros e' b. eapply (IHf N2); eauto.
      + eapply (everywhere_flat _ _ F1); [|exact V1]. intros e' b. eapply (IHf N2); eauto.
  Qed.

  Variable m : mapping.
  Lemma inst_not_and f g : is_eff f -> is_node OAnd f = false -> instantiate m f = Ok g -> ops_if (CBin OAnd) g = None.
  Proof.
    intros E N H. inversion E; subst; cbn in N; try discriminate; cbn [instantiate] in H.
    - apply mk_pred_Ok in H. now subst.
    - apply bind_Ok in H as (g' & _ & [= <-]). reflexivity.
    - apply bind_Ok in H as (g' & _ & X). apply Ok_eq in X. subst g. destruct k; cbn in H0; try discriminate; reflexivity.
    - apply bind_Ok in H as (g' & _ & X). apply Ok_eq in X. subst g. reflexivity.
  Qed.
  Lemma outcome_inst f : forall g e D, is_eff f -> nf f -> names_agree m f -> arith_kept m f -> effects_kept m f ->
    instantiate m f = Ok g -> (outcome I e g D <-> outcome I (bind_env m e) f D).
  Proof.
    induction f using form_ind'; intros g e D Ef NF A K KE E; inversion Ef; subst.
    - cbn [instantiate] in E. apply mk_pred_Ok in E. subst.
      assert (X : map (den I e) (map (inst_term m) ts) = map (den I (bind_env m e)) ts).
      { symmetry. apply inst_dens. intros v Hv. apply A. now constructor. }
      split; intros O; inversion O as [? ? ? O1| | | | | |]; subst; constructor; [rewrite <- X|rewrite X]; exact O1.
    - cbn [instantiate] in E. apply bind_Ok in E as (ops' & M & E). apply Ok_eq in E. subst g.
      apply mapR_Ok in M. inversion M as [|? a' ? l1 Ma M1]; subst. inversion M1 as [|? x' ? l2 Mx M2]; subst. inversion M2; subst. clear M M1 M2.
      cbn [instantiate] in Ma. apply mk_numfun_Ok in Ma. subst a'.
      assert (R : mk_binfun k [FNumFun n (map (inst_term m) ts); x'] = FBinFun k [FNumFun n (map (inst_term m) ts); x']).
      { match goal with W : assign_word _ = Some _ |- _ => destruct k; cbn in W; try discriminate W; reflexivity end. }
      rewrite R. clear R.
      assert (X : map (den I e) (map (inst_term m) ts) = map (den I (bind_env m e)) ts).
      { symmetry. apply inst_dens. intros v Hv. apply A. eapply A_binfun; [now left|]. now constructor. }
      assert (V : value I e x' = value I (bind_env m e) x).
      { apply value_inst; auto.
        - intros v Hv. apply A. eapply A_binfun; [right; now left|auto].
        - intros k' o o' W. apply K. eapply W_binfun; [right; now left|auto]. }
      split; intros O; inversion O as [| |k0 w0 n0 ts0 x0 D0 W0 O0| | | |]; subst; econstructor; eauto; [rewrite <- X, <- V|rewrite X, V]; exact O0.
    - cbn [instantiate] in E. apply bind_Ok in E as (ops' & M & E). apply Ok_eq in E. subst g.
      pose proof (KE _ _ (W_self _) M) as P. apply mapR_Ok in M. destruct NF as [NF [NN _]]. rewrite fold_and_Forall in NF.
      unfold mk_bin. change (mk_op (CBin OAnd) ops') with (mk_and ops'). rewrite mk_and_sums.
      2:{ clear - M H1 NN. induction M as [|x y l l' Hx M IH]; constructor; inversion H1; inversion NN; subst; auto. eapply inst_not_and; eauto. }
      2:{ clear - P. induction P; constructor; auto. eapply Forall_impl; [|eassumption]. cbn. intros y Hy E. apply outcome_simple. auto. }
      assert (S : forall Ds, Forall2 (outcome I e) ops' Ds <-> Forall2 (outcome I (bind_env m e)) ops Ds).
      { assert (Q : Forall2 (fun f g => forall D, outcome I e g D <-> outcome I (bind_env m e) f D) ops ops').
        { assert (Z : forall f, In f ops -> names_agree m f /\ arith_kept m f /\ effects_kept m f).
          { intros f Hf. split; [|split].
            - intros v Hv. apply A. eapply A_bin; eauto.
            - intros k' o o' W. apply K. eapply W_bin; eauto.
            - intros o o' W. apply KE. eapply W_bin; eauto. }
          clear - M H H1 NF Z. induction M as [|x y l l' Hx M IH]; constructor; inversion H; inversion H1; inversion NF; subst.
          - intros D. destruct (Z x) as (Z1 & Z2 & Z3); [now left|]. auto.
          - apply IH; auto. intros f Hf. apply Z. now right. }
        clear - Q. intros Ds. revert Ds. induction Q as [|x y l l' Hx Q IH]; intros Ds; split; intros F; inversion F; subst; constructor; try apply Hx; try apply IH; auto. }
      unfold sums. split.
      + intros (Ds & F & T). econstructor; [apply S|]; eauto.
      + intros O. inversion O; subst. eexists. split; [apply S|]; eauto.
    - cbn [instantiate] in E. apply bind_Ok in E as (ops' & M & E). apply Ok_eq in E. subst g.
      apply mapR_Ok in M. destruct NF as [NF _]. rewrite fold_and_Forall in NF.
      unfold mk_bin. change (mk_op (CBin OOneOf) ops') with (FBin OOneOf ops').
      assert (Z : forall f, In f ops -> names_agree m f /\ arith_kept m f /\ effects_kept m f).
      { intros f Hf. split; [|split].
        - intros v Hv. apply A. eapply A_bin; eauto.
        - intros k' o o' W. apply K. eapply W_bin; eauto.
        - intros o o' W. apply KE. eapply W_bin; eauto. }
      rewrite Forall_forall in H, H1, NF.
      split; intros O; inversion O as [| | | | | |o f0 D0 Hf O1]; subst.
      + destruct (F2_In_r _ _ _ _ M Hf) as (f1 & Hf1 & E1). econstructor; [exact Hf1|].
        destruct (Z f1 Hf1) as (Z1 & Z2 & Z3). apply (H f1 Hf1 f0); auto.
      + destruct (F2_In_l _ _ _ _ M Hf) as (f1 & Hf1 & E1). econstructor; [exact Hf1|].
        destruct (Z f0 Hf) as (Z1 & Z2 & Z3). apply (H f0 Hf f1); auto.
    - cbn [instantiate] in E. apply bind_Ok in E as (g' & E1 & E). apply Ok_eq in E. subst g. apply mk_pred_Ok in E1. subst g'. unfold mk_not.
      assert (X : map (den I e) (map (inst_term m) ts) = map (den I (bind_env m e)) ts).
      { symmetry. apply inst_dens. intros v Hv. apply A. constructor. now constructor. }
      split; intros O; inversion O as [|? ? ? O1| | | | |]; subst; constructor; [rewrite <- X|rewrite X]; exact O1.
    - discriminate.
    - discriminate.
  Qed.
End Ground.
