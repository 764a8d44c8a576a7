(** Equal domains, problems and plans give the same verdicts. *)
From Coq Require Import String List Bool.
From Verif Require Import Py Names Reqs Logic Validation Core Spec Spec_Core.
From Verif Require Import Py_facts Logic_facts Names_facts Order_facts CoreEq_facts Validation_facts Core_facts Print_facts Subst_facts.
Import ListNotations.
Open Scope string_scope.
Open Scope list_scope.

Lemma req_memb r l : memb req_eqb r l = true <-> In r l.
Proof.
  split; [|apply (In_memb _ req_eqb_equiv)]. intros H. apply memb_In in H as (x & Hx & E).
  assert (r = x) by (destruct r, x; try discriminate E; reflexivity). now subst.
Qed.
Lemma equal_types ty ty' : NoDup (map fst ty) -> NoDup (map fst ty') -> types_eqb ty ty' = true ->
  forall k v, In (k, v) ty <-> In (k, v) ty'.
Proof.
  assert (Z : forall l : types_dict, NoDup (map fst l) -> NoDupE String.eqb (map fst l)).
  { intros l. generalize (map fst l). clear. intros l. induction 1 as [|x l NI N IH]; constructor; auto. apply memb_false. intros y Hy. apply String.eqb_neq. now intros ->. }
  assert (G : forall ty ty', NoDup (map fst ty) -> dict_same String.eqb (option_eqb String.eqb) ty ty' ->
    forall k v, In (k, v) ty -> In (k, v) ty').
  { intros a b N E k v H. specialize (E k). rewrite (dict_get_In_iff _ string_eqb_equiv k v) in E; auto.
    destruct (dict_get String.eqb k b) as [v'|] eqn:Q; [|discriminate].
    apply dict_get_In in Q as (k' & K & Q). apply String.eqb_eq in Q. subst k'. cbn in E. apply okey_eqb_eq in E. now subst. }
  intros N N' E k v. apply (dict_eqb_spec _ string_eqb_equiv) in E; auto. split; [now apply G|].
  apply G; auto. now apply dict_same_sym; [apply opt_str_equiv|].
Qed.
Lemma equal_typed ty ty' rs rs' : (forall k v, In (k, v) ty <-> In (k, v) ty') -> (forall r, In r rs <-> In r rs') ->
  forall t, term_typed ty rs t <-> term_typed ty' rs' t.
Proof.
  intros T R t. unfold term_typed, typing_on, declared, supertype. rewrite !R. setoid_rewrite T. reflexivity.
Qed.
Lemma equal_reqs rs rs' : set_eqb req_eqb rs rs' = true -> forall r, In r rs <-> In r rs'.
Proof. intros E r. apply (set_eqb_spec _ req_eqb_equiv) with (x := r) in E. rewrite <- !req_memb, E. reflexivity. Qed.
Lemma equal_consts cs cs' : set_eqb const_eqb cs cs' = true -> forall n, (exists o, In o cs /\ fst o = n) <-> (exists o, In o cs' /\ fst o = n).
Proof.
  intros E. assert (G : forall a b, set_eqb const_eqb a b = true -> forall n, (exists o, In o a /\ fst o = n) -> exists o, In o b /\ fst o = n).
  { intros a b H n (o & I & <-). apply (set_eqb_spec _ const_eqb_equiv) with (x := o) in H.
    rewrite (In_memb _ const_eqb_equiv o a I) in H. symmetry in H. apply memb_In in H as (o' & I' & Q).
    exists o'. split; auto. symmetry. now apply String.eqb_eq. }
  intros n. split; apply G; auto. now rewrite (eqv_sym _ (set_eqb_equiv _ const_eqb_equiv)).
Qed.
Lemma problem_check_equal p d d' : domain_built d -> domain_built d' -> domain_eqb d d' = true ->
  (problem_check p d = Ok tt <-> problem_check p d' = Ok tt).
Proof.
  intros B B' E. rewrite !problem_check_Ok by auto. unfold domain_eqb in E.
  do 5 apply andb_true_iff in E as [E _]. apply andb_true_iff in E as [E E3]. apply andb_true_iff in E as [E1 E2].
  apply String.eqb_eq in E1. rewrite E1. pose proof (equal_reqs _ _ E2) as R.
  pose proof (equal_types _ _ (proj1 (domain_built_types _ B)) (proj1 (domain_built_types _ B')) E3) as T.
  pose proof (equal_typed _ _ _ _ T R) as Q. unfold problem_typed, form_typed, incl.
  setoid_rewrite Q. setoid_rewrite R. reflexivity.
Qed.
Lemma equal_actions l l' : set_eqb action_eqb l l' = true -> forall n k,
  (exists a, In a l /\ a_name a = n /\ length (a_params a) = k) <-> (exists a, In a l' /\ a_name a = n /\ length (a_params a) = k).
Proof.
  intros E. assert (G : forall x y, set_eqb action_eqb x y = true -> forall n k, (exists a, In a x /\ a_name a = n /\ length (a_params a) = k) ->
    exists a, In a y /\ a_name a = n /\ length (a_params a) = k).
  { intros x y H n k (a & I & <- & <-). apply (set_eqb_spec _ action_eqb_equiv) with (x := a) in H.
    rewrite (In_memb _ action_eqb_equiv a x I) in H. symmetry in H. apply memb_In in H as (b & I' & Q).
    unfold action_eqb in Q. do 2 apply andb_true_iff in Q as [Q _]. apply andb_true_iff in Q as [Q1 Q2].
    exists b. split; auto. split; [symmetry; now apply String.eqb_eq|]. apply list_eqb_Forall2 in Q2. symmetry. now apply Forall2_length in Q2. }
  intros n k. split; apply G; auto. now rewrite (eqv_sym _ (set_eqb_equiv _ action_eqb_equiv)).
Qed.
Lemma known_step_equal d d' p p' st st' : domain_eqb d d' = true -> problem_eqb p p' = true ->
  fst st = fst st' -> list_eqb const_eqb (snd st) (snd st') = true -> known_step d p st -> known_step d' p' st'.
Proof.
  intros ED EP EF ES (a & I & N & L & K). unfold domain_eqb in ED. apply andb_true_iff in ED as [ED EA].
  do 3 apply andb_true_iff in ED as [ED _]. apply andb_true_iff in ED as [_ EC].
  unfold problem_eqb in EP. do 3 apply andb_true_iff in EP as [EP _]. apply andb_true_iff in EP as [_ EO].
  apply list_eqb_Forall2 in ES. pose proof (proj1 (equal_actions _ _ EA (fst st) (length (snd st))) (ex_intro _ a (conj I (conj N L)))) as (b & I' & N' & L').
  exists b. split; auto. split; [congruence|]. split; [rewrite L'; now apply Forall2_length in ES|].
  intros c Hc. assert (X : exists c0, In c0 (snd st) /\ fst c0 = fst c).
  { clear - ES Hc. induction ES as [|x y l l' Q ES IH]; [easy|]. destruct Hc as [<-|Hc].
    - exists x. split; [now left|]. now apply String.eqb_eq.
    - destruct (IH Hc) as (c0 & H & E). exists c0. split; auto. now right. }
  destruct X as (c0 & H0 & <-). destruct (K c0 H0) as (o & [Ho|Ho] & E).
  - destruct (proj1 (equal_consts _ _ EO (fst c0)) (ex_intro _ o (conj Ho E))) as (o' & Ho' & E'). eauto.
  - destruct (proj1 (equal_consts _ _ EC (fst c0)) (ex_intro _ o (conj Ho E))) as (o' & Ho' & E'). eauto.
Qed.
Lemma plan_check_equal d d' p p' pl pl' : NoDup (map a_name (d_actions d)) -> NoDup (map a_name (d_actions d')) ->
  domain_eqb d d' = true -> problem_eqb p p' = true -> plan_eqb pl pl' = true ->
  plan_check pl d p = Ok tt -> plan_check pl' d' p' = Ok tt.
Proof.
  intros N N' ED EP EL H. apply plan_check_Ok; auto. pose proof (proj1 (plan_check_Ok d p pl N) H) as K. clear H.
  apply list_eqb_Forall2 in EL. induction EL as [|x y l l' Q EL IH]; [easy|]. apply andb_true_iff in Q as [Q1 Q2]. apply String.eqb_eq in Q1.
  intros st [<-|Hst].
  - eapply known_step_equal; eauto. apply K. now left.
  - apply IH; auto. intros z Hz. apply K. now right.
Qed.
