(** The ground actions of a plan do what the steps of the plan do. *)
From Coq Require Import String List Bool Arith QArith Lia.
From Verif Require Import Py Names Logic Validation Core Sem Spec Spec_Core Spec_Effect Spec_Ground Spec_Execute Built.
From Verif Require Import Py_facts Logic_facts Names_facts Ops_facts Built_facts Effect_facts Inst_facts Order_facts Core_facts Ground_facts.
Import ListNotations.
Open Scope string_scope.
Open Scope list_scope.
Close Scope Q_scope.

Lemma value_env_ext I f : forall e e' : env I, (forall n, e n = e' n) -> value I e f = value I e' f.
Proof.
  induction f using form_ind'; intros e e' H0; try reflexivity.
  - simpl. f_equal. apply map_ext. intros [n0 g|v]; simpl; auto.
  - rewrite !value_binfun. f_equal. apply map_ext_in. intros f Hf. rewrite Forall_forall in H. auto.
Qed.
Lemma outcome_env_ext I f : forall (e e' : env I) D, (forall n, e n = e' n) -> outcome I e f D -> outcome I e' f D.
Proof.
  assert (DS : forall (e e' : env I), (forall n, e n = e' n) -> forall ts, map (den I e) ts = map (den I e') ts).
  { intros e e' H ts. apply map_ext. intros [n g|v]; simpl; auto. }
  induction f using form_ind'; intros e e' D E O; inversion O; subst.
  - constructor. now rewrite <- (DS e e' E).
  - econstructor; eauto. now rewrite <- (DS e e' E), <- (value_env_ext _ _ _ _ E).
  - econstructor; eauto. match goal with F : Forall2 _ _ _ |- _ => clear - F H E; induction F; constructor; inversion H; subst; eauto end.
  - rewrite Forall_forall in H. econstructor; eauto.
  - constructor. now rewrite <- (DS e e' E).
  - econstructor; [eapply IHf2; eauto|]. eapply only_if_iff; [|eassumption]. now apply holds_env_ext.
  - assert (X : forall e2, extends I vs e e2 <-> extends I vs e' e2).
    { intros e2. split; intros [Q1 Q2]; split; auto; intros n N; rewrite Q1; auto. }
    econstructor; [| |eapply everywhere_iff; [exact X|eassumption]]; auto.
    intros e2 B. apply X in B. auto.
Qed.

Section Plans.
  Variable next : forall I J : interp, changes J -> interp -> Prop.

  Lemma image_in vs cs J (e : env J) : NoDup (map v_name vs) -> length cs = length vs ->
    gives J (bind_env (combine (map TVar vs) (map const_term cs)) e) (map TVar vs) cs.
  Proof.
    intros ND L. unfold gives.
    assert (G : forall (f : env J) us (ds : list const), length ds = length us ->
      (forall v c, In (v, c) (combine us ds) -> f (v_name v) = i_const J (fst c)) ->
      Forall2 (fun t c => exists v, t = TVar v /\ f (v_name v) = i_const J (fst c)) (map TVar us) ds).
    { intros f. induction us as [|v us IH]; intros [|c ds] Q H; try discriminate; constructor.
      - exists v. split; auto. apply H. now left.
      - apply IH; [cbn in Q; lia|]. intros w k K. apply H. now right. }
    apply G; auto. intros v c H. unfold bind_env.
    assert (X : Spec_Core.image (combine (map TVar vs) (map const_term cs)) (v_name v) = Some (const_term c)).
    { clear G e L. revert cs H. induction vs as [|w vs IH]; intros [|k cs] H; cbn in H; try contradiction. cbn.
      inversion ND as [|? ? N1 N2]; subst. destruct H as [[= -> ->]|H].
      - now rewrite String.eqb_refl.
      - destruct (String.eqb_spec (v_name w) (v_name v)) as [Q|_]; [|now apply IH].
        exfalso. apply N1. rewrite Q. apply in_map. eapply in_combine_l; eauto. }
    rewrite X. destruct c. reflexivity.
  Qed.
  Lemma bind_given vs cs J (e : env J) : gives J e (map TVar vs) cs ->
    forall n, bind_env (combine (map TVar vs) (map const_term cs)) e n = e n.
  Proof.
    intros G n. unfold bind_env. revert cs G. induction vs as [|v vs IH]; intros cs G; cbn; auto.
    inversion G as [|? c ? cs' (w & W & Q) G']; subst. injection W as <-. cbn.
    destruct (String.eqb_spec (v_name v) n) as [<-|]; [|now apply IH]. rewrite Q. destruct c. reflexivity.
  Qed.
  Lemma mapping_distinct vs (ts : list term) : NoDup (map v_name vs) -> dict_of_list term_eqb (combine (map TVar vs) ts) = combine (map TVar vs) ts.
  Proof.
    intros ND. apply dict_of_list_id; [apply term_eqb_equiv|].
    assert (X : forall us, NoDup (map v_name us) -> forall l, NoDupE term_eqb (map fst (combine (map TVar us) (l : list term)))).
    { intros us. induction us as [|v us IH]; intros N [|t l]; cbn; try constructor; inversion N; subst; auto.
      apply memb_false. intros y Hy. apply in_map_iff in Hy as ((k & u) & <- & Hk). apply in_combine_l in Hk. apply in_map_iff in Hk as (w & <- & Hw).
      cbn. unfold var_eqb. destruct (String.eqb_spec (v_name v) (v_name w)) as [Q|]; auto. exfalso. apply H1. rewrite Q. now apply in_map. }
    now apply X.
  Qed.

  Lemma acts_inst ds I a cs a' I' : action_instantiate a (map const_term cs) = Ok a' -> groundable a cs ->
    (acts next ds I a' I' <-> exists J e D, completed ds I J /\ gives J e (a_params a) cs
       /\ condition J e (a_pre a) /\ effect J e (a_eff a) D /\ next I J D I').
  Proof.
    intros E ((vs & P & ND) & G1 & G2). apply action_instantiate_inv in E as (L & _ & _ & E1 & E2). rewrite map_length in L.
    unfold mapping_of in E1, E2. rewrite P in *. rewrite mapping_distinct in E1, E2 by auto. rewrite map_length in L.
    set (m := combine (map TVar vs) (map const_term cs)) in *.
    assert (C : forall J (e : env J), condition J e (a_pre a') <-> condition J (bind_env m e) (a_pre a)).
    { intros J e. destruct (a_pre a) as [f|]; cbn in E1.
      - apply bind_Ok in E1 as (g & E1 & X). apply Ok_eq in X. rewrite <- X. destruct (G1 f eq_refl) as (? & ? & ? & ?). cbn. eapply holds_inst; eauto.
      - apply Ok_eq in E1. rewrite <- E1. cbn. tauto. }
    assert (F : forall J (e : env J) D, effect J e (a_eff a') D <-> effect J (bind_env m e) (a_eff a) D).
    { intros J e D. destruct (a_eff a) as [f|]; cbn in E2.
      - apply bind_Ok in E2 as (g & E2 & X). apply Ok_eq in X. rewrite <- X. destruct (G2 f eq_refl) as (? & ? & ? & ? & ?). cbn.
        eapply outcome_inst; eauto. now apply built_nf.
      - apply Ok_eq in E2. rewrite <- E2. cbn. tauto. }
    unfold acts. split.
    - intros (J & e & D & K & H1 & H2 & N). exists J, (bind_env m e), D. split; auto. split; [now apply image_in|].
      split; [now apply C|]. split; [now apply F|auto].
    - intros (J & e & D & K & Gv & H1 & H2 & N). exists J, e, D. split; auto. pose proof (bind_given _ _ _ _ Gv) as Q.
      assert (Q' : forall n, e n = bind_env m e n) by (intros; symmetry; apply Q).
      split; [|split; auto].
      + apply C. destruct (a_pre a) as [f|]; cbn in *; auto. eapply holds_env_ext; [|exact H1]. exact Q.
      + apply F. destruct (a_eff a) as [f|]; cbn in *; auto. eapply outcome_env_ext; [|exact H2]. exact Q'.
  Qed.

  Lemma acts_plan d pl l : plan_instantiate pl d = Ok l -> NoDup (map a_name (d_actions d)) ->
    (forall st a, In st pl -> In a (d_actions d) -> a_name a = fst st -> groundable a (snd st)) ->
    forall I I', runs next d I pl I' <-> acts_all next (d_derived d) I l I'.
  Proof.
    intros E ND. unfold plan_instantiate in E. apply mapR_Ok in E. intros G.
    induction E as [|st a' pl l Hst E IH]; intros I I'.
    - split; intros R; inversion R; subst; constructor.
    - destruct (dict_get String.eqb (fst st) (name_to_schema d)) as [a|] eqn:S; [|discriminate].
      apply (schema_get d) in S as [Ha Hn]; auto.
      assert (Ga : groundable a (snd st)) by (apply G; auto; now left).
      assert (IH' : forall I I', runs next d I pl I' <-> acts_all next (d_derived d) I l I').
      { apply IH. intros st0 a0 H0. apply G. now right. }
      assert (X : forall I1, executes next d I st I1 <-> acts next (d_derived d) I a' I1).
      { intros I1. rewrite (acts_inst _ _ _ _ _ _ Hst Ga). unfold executes. split.
        - intros (b & J & e & D & Hb & Hbn & K). assert (b = a) as ->.
          { clear - ND Ha Hb Hn Hbn. assert (a_name b = a_name a) by congruence. clear Hn Hbn.
            induction (d_actions d) as [|x xs IH]; [contradiction|]. inversion ND; subst.
            destruct Ha as [->|Ha], Hb as [->|Hb]; auto.
            - exfalso. apply H2. rewrite <- H. now apply in_map.
            - exfalso. apply H2. rewrite H. now apply in_map. }
          exists J, e, D. exact K.
        - intros (J & e & D & K). exists a, J, e, D. auto. }
      split; intros R; inversion R; subst; econstructor; try (apply X; eassumption); apply IH'; assumption.
  Qed.
End Plans.
