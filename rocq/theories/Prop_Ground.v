(** C16 for effects, C84: ground actions do what the steps of a plan do. *)
From Coq Require Import String List Bool Arith ZArith QArith Lia.
From Verif Require Import Py Names Reqs Logic Built Validation Core Lexer Parser Sem.
From Verif Require Import Spec Spec_Core Spec_Effect Spec_Ground Spec_Execute.
From Verif Require Import Py_facts Logic_facts Names_facts Ops_facts Built_facts Effect_facts Inst_facts Core_facts Ground_facts GroundPlan_facts Prop_Core.
Import ListNotations.
Open Scope string_scope.
Open Scope list_scope.
Close Scope Q_scope.

Definition nats : interp :=
  {| obj := nat; i_const := String.length; i_pred := fun _ _ => True;
     i_func := fun _ _ => 1%Q; i_type := fun _ _ => True |}.
Definition both : form := FBin OAnd [FBinFun BIncrease [FNumFun "fuel" [TVar x0]; FNumVal (NInt 1)];
                                     FBinFun BIncrease [FNumFun "fuel" [TVar y0]; FNumVal (NInt 1)]].
Definition one_more : @change nats := @Num nats "increase" "fuel" [1] 1%Q.
(** what one increase of [one_more] amounts to *)
Definition once_more : changes nats := fun c k => k = 0 \/ (k = 1 /\ same_change nats c one_more).
Definition twice_more : changes nats := fun c k =>
  exists ks, Forall2 (fun (E : changes nats) j => E c j) [once_more; once_more] ks /\ k <= list_sum ks /\ counted nats c k.
Lemma both_twice (e : env nats) : e "x" = 1 -> e "y" = 1 -> outcome nats e both twice_more.
Proof.
  intros X Y. eapply (oc_and nats e _ [once_more; once_more]); [|intros c k; reflexivity].
  constructor; [|constructor; [|constructor]]; (eapply oc_num; [reflexivity|]); intros c k; cbn [map den]; unfold once_more, one_more;
    cbn [v_name x0 y0]; rewrite ?X, ?Y; reflexivity.
Qed.
Lemma twice_2 : twice_more one_more 2.
Proof.
  exists [1; 1]. assert (S : once_more one_more 1) by (right; split; auto; cbn; repeat split; reflexivity).
  split; [repeat constructor; exact S|]. split; [cbn; lia|]. right. cbn. discriminate.
Qed.
Lemma single_1 J (e : env J) ts x D c : outcome J e (FBinFun BIncrease [FNumFun "fuel" ts; x]) D -> ~ D c 2.
Proof. intros O H. inversion O as [| |? w ? ? ? ? _ Q| | | |]; subst. apply Q in H as [H|[H _]]; discriminate. Qed.

(** two increases that become equal are merged into one: increase fuel(x) and fuel(y) by 1 *)
Theorem C16_effects_refuted : ~ (forall I m f e g D, is_eff f -> built f -> names_agree m f -> arith_kept m f ->
  instantiate m f = Ok g -> (outcome I e g D <-> outcome I (bind_env m e) f D)).
Proof.
  intros H. pose (m := [(TVar x0, TConst "t" None); (TVar y0, TConst "t" None)]).
  destruct (instantiate m both) as [g|e] eqn:E; [|vm_compute in E; discriminate].
  destruct (H nats m both (fun _ => 1) g twice_more) as [_ B]; auto.
  - apply E_and. repeat constructor; eapply E_num; try reflexivity; constructor.
  - apply (B_bin OAnd [FBinFun BIncrease [FNumFun "fuel" [TVar x0]; FNumVal (NInt 1)];
                       FBinFun BIncrease [FNumFun "fuel" [TVar y0]; FNumVal (NInt 1)]]).
    repeat constructor;
      [refine (B_binfun BIncrease [FNumFun "fuel" [TVar x0]; FNumVal (NInt 1)] _)|refine (B_binfun BIncrease [FNumFun "fuel" [TVar y0]; FNumVal (NInt 1)] _)];
      repeat constructor; [apply (B_numfun "fuel" [TVar x0])|apply (B_numfun "fuel" [TVar y0])]; reflexivity.
  - intros v A k u Hk Ek. assert (V : v = x0 \/ v = y0) by (unfold both in A; clear -A; chase; auto).
    destruct Hk as [[= <- <-]|[[= <- <-]|[]]], V as [->| ->]; auto; discriminate.
  - intros k ops ops' W Ar. exfalso. unfold both in W. clear - W Ar.
    assert (k = BIncrease) by (chase; auto). subst. unfold arith in Ar. intuition discriminate.
  - vm_compute in E. inversion E; subst g.
    assert (X : outcome nats (@bind_env nats m (fun _ => 1)) both twice_more) by (apply both_twice; reflexivity).
    apply B in X. apply (single_1 _ _ _ _ _ _ X twice_2).
Qed.
Print Assumptions C16_effects_refuted.
(** what holds: the instance of an effect makes the changes of the effect under the corresponding
    assignment, unless additive effects or choices become equal in a conjunction *)
Theorem C16_effects_partial : forall I m f e g D,
  is_eff f -> built f -> names_agree m f -> arith_kept m f -> effects_kept m f ->
  instantiate m f = Ok g -> (outcome I e g D <-> outcome I (bind_env m e) f D).
Proof. intros I m f e g D Ef B A K KE E. eapply outcome_inst; eauto. now apply built_nf. Qed.
Print Assumptions C16_effects_partial.

Definition fuel_text : string :=
  "(define (domain d) (:requirements :strips :fluents) (:predicates (at ?r ?p)) (:functions (fuel ?r)) (:action move :parameters (?r ?p ?q) :precondition (and (at ?r ?p) (> (fuel ?r) 1)) :effect (and (at ?r ?q) (not (at ?r ?p)) (decrease (fuel ?r) 1))) (:action fill :parameters (?x ?y) :precondition (and) :effect (and (increase (fuel ?x) 1) (increase (fuel ?y) 1))))".

(** for parsed domains too: filling the same one twice increases only once *)
Theorem C84_refuted : ~ (forall next s d pl l, parse_domain_fresh s = Ok d -> plan_instantiate pl d = Ok l ->
  forall I I', runs next d I pl I' <-> acts_all next (d_derived d) I l I').
Proof.
  intros H. pose (next := fun (I J : interp) (D : changes J) (I' : interp) => exists c, D c 2).
  destruct (parse_domain_fresh fuel_text) as [d|] eqn:E; [|vm_compute in E; discriminate].
  pose (pl := [("fill", [("t", None); ("t", None)])] : plan).
  destruct (plan_instantiate pl d) as [l|] eqn:EL; [|vm_compute in E; injection E as <-; vm_compute in EL; discriminate].
  destruct (H next _ _ _ _ E EL nats nats) as [A _]. clear H.
  assert (R : runs next d nats pl nats).
  { eapply run_step; [|apply run_end].
    assert (X : exists a, In a (d_actions d) /\ a_name a = "fill" /\ a_params a = [TVar x0; TVar y0] /\ a_eff a = Some both
      /\ a_pre a = Some (FBin OAnd [])).
    { vm_compute in E. injection E as <-. eexists. split; [right; left; reflexivity|]. repeat split. }
    destruct X as (a & Ha & Na & Pa & Ea & Ca). exists a, nats, (fun _ => 1), twice_more. split; auto. split; auto. split.
    - exists (fun _ _ => True). split; auto. intros n os. split; auto. intros _ R [C _]. now apply C.
    - rewrite Pa, Ea, Ca. split.
      + unfold gives. cbn. repeat constructor; eexists; split; reflexivity.
      + split; [cbn; auto|]. split; [apply both_twice; reflexivity|exists one_more; apply twice_2]. }
  apply A in R. vm_compute in E. injection E as <-. vm_compute in EL. injection EL as <-.
  inversion R as [|? ? ? ? ? (J & e & D & _ & _ & X & c & N)]; subst. cbn in X. apply (single_1 _ _ _ _ _ _ X N).
Qed.
Print Assumptions C84_refuted.
(** Grounding an action: the result does what the action does with the constants as its
    parameters, under the conditions of C16. *)
Theorem C84_action_partial : forall next ds a cs a' I I', action_instantiate a (map const_term cs) = Ok a' -> groundable a cs ->
  (acts next ds I a' I' <-> exists J e D, completed ds I J /\ gives J e (a_params a) cs
     /\ condition J e (a_pre a) /\ effect J e (a_eff a) D /\ next I J D I').
Proof. intros next ds a cs a' I I'. apply acts_inst. Qed.
Print Assumptions C84_action_partial.
(** Grounding a plan: the list of ground actions leads where the plan leads. *)
Theorem C84_plan_partial : forall next d pl l, plan_instantiate pl d = Ok l -> NoDup (map a_name (d_actions d)) ->
  (forall st a, In st pl -> In a (d_actions d) -> a_name a = fst st -> groundable a (snd st)) ->
  forall I I', runs next d I pl I' <-> acts_all next (d_derived d) I l I'.
Proof. intros next d pl l. apply acts_plan. Qed.
Print Assumptions C84_plan_partial.

(** the plan that moves r from p to q and then fills r and s *)
Definition fuel_plan : plan := [("move", [("r", None); ("p", None); ("q", None)]); ("fill", [("r", None); ("s", None)])].
Ltac agree := let v := fresh in let A := fresh in let k := fresh in let u := fresh in let K := fresh in let Q := fresh in
  intros v A k u K Q; cbn in K;
  repeat (destruct K as [K|K]; [injection K as <- <-; chase; (discriminate Q || reflexivity)|]); contradiction.
Ltac build := repeat match goal with
  | |- Forall _ [] => constructor
  | |- Forall _ (_ :: _) => constructor
  | |- built (FBin ?k ?l) => apply (B_bin k l)
  | |- built (FBinFun ?k ?l) => apply (B_binfun k l)
  | |- built (FNot ?f) => apply (B_not f)
  | |- built (FPred ?n ?ts) => eapply (B_pred n ts); reflexivity
  | |- built (FNumFun ?n ?ts) => eapply (B_numfun n ts); reflexivity
  | |- built (FNumVal ?v) => apply B_numval
  end.
Example C84_ex : exists d l, parse_domain_fresh fuel_text = Ok d /\ NoDup (map a_name (d_actions d))
  /\ plan_instantiate fuel_plan d = Ok l /\ length l = 2
  /\ (forall st a, In st fuel_plan -> In a (d_actions d) -> a_name a = fst st -> groundable a (snd st)).
Proof.
  destruct (parse_domain_fresh fuel_text) as [d|] eqn:E; [|vm_compute in E; discriminate].
  destruct (plan_instantiate fuel_plan d) as [l|] eqn:EL; [|vm_compute in E; injection E as <-; vm_compute in EL; discriminate].
  exists d, l. split; auto.
  vm_compute in E. injection E as <-. vm_compute in EL. injection EL as <-. split.
  { cbn. repeat constructor; cbn; intuition discriminate. }
  split; auto. split; auto. intros st a [<-|[<-|[]]] Ha Hn; cbn in Ha; destruct Ha as [<-|[<-|[]]]; try discriminate Hn; clear Hn; (split; [|split]).
  - exists [mkVar "r" []; mkVar "p" []; mkVar "q" []]. split; auto. cbn. repeat constructor; cbn; intuition discriminate.
  - intros f [= <-]. split; [|split; [|split]].
    + apply C_bin; [discriminate|]. constructor; [constructor|constructor; [|constructor]].
      apply C_cmp; [unfold comparison; tauto|repeat constructor].
    + agree.
    + intros v A. exfalso. chase.
    + intros k ops ops' W Ar. exfalso. unfold arith in Ar. chase; intuition discriminate.
  - intros f [= <-]. split; [|split; [|split; [|split]]].
    + apply E_and. repeat constructor. eapply E_num; [reflexivity|constructor].
    + build.
    + agree.
    + intros k ops ops' W Ar. exfalso. unfold arith in Ar. chase; intuition discriminate.
    + intros ops ops' W M. chase. cbn in M. injection M as <-. repeat constructor; cbn; discriminate.
  - exists [mkVar "x" []; mkVar "y" []]. split; auto. cbn. repeat constructor; cbn; intuition discriminate.
  - intros f [= <-]. split; [|split; [|split]].
    + apply C_bin; [discriminate|]. constructor.
    + agree.
    + intros v A. exfalso. chase.
    + intros k ops ops' W Ar. exfalso. unfold arith in Ar. chase; intuition discriminate.
  - intros f [= <-]. split; [|split; [|split; [|split]]].
    + apply E_and. repeat constructor; (eapply E_num; [reflexivity|constructor]).
    + build.
    + agree.
    + intros k ops ops' W Ar. exfalso. unfold arith in Ar. chase; intuition discriminate.
    + intros ops ops' W M. chase. cbn in M. injection M as <-. repeat constructor; cbn; discriminate.
Qed.
(** the effect of filling satisfies the conditions of C16 when r and s are different *)
Example C16_effects_ex : let m := [(TVar x0, TConst "r" None); (TVar y0, TConst "s" None)] in
  is_eff both /\ built both /\ names_agree m both /\ arith_kept m both /\ effects_kept m both
  /\ exists g, instantiate m both = Ok g /\ g <> both.
Proof.
  cbv zeta. split; [|split; [|split; [|split; [|split]]]]; unfold both.
  - apply E_and. repeat constructor; (eapply E_num; [reflexivity|constructor]).
  - build.
  - agree.
  - intros k ops ops' W Ar. exfalso. unfold arith in Ar. chase; intuition discriminate.
  - intros ops ops' W M. chase. cbn in M. injection M as <-. repeat constructor; cbn; discriminate.
  - eexists. split; [reflexivity|discriminate].
Qed.
