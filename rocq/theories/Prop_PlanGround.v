(** C86 for all parsed domains, also those in which several actions have one name. *)
From Coq Require Import String List Bool Arith Permutation.
From Verif Require Import Py Names Reqs Logic Validation Core Lexer Parser Spec Spec_Core Spec_Instantiate Py_facts Core_facts Prop_Instantiate Prop_PlanOrder.
Import ListNotations.
Open Scope string_scope.
Open Scope list_scope.

Lemma ground_steps d pl : (exists l, plan_instantiate pl d = Ok l) <->
  forall st, In st pl -> exists a, last_named (fst st) (d_actions d) a
    /\ exists a', action_instantiate a (map const_term (snd st)) = Ok a'.
Proof.
  unfold plan_instantiate. induction pl as [|st pl IH]; cbn [mapR].
  - split; [intros _ x []|]. exists []. reflexivity.
  - split.
    + intros (l & H). apply bind_Ok in H as (a' & H & H2). apply bind_Ok in H2 as (l' & H2 & _).
      intros x [<-|I]; [|apply IH; eauto]. destruct (dict_get String.eqb (fst st) (name_to_schema d)) as [a|] eqn:G; [|discriminate].
      exists a. split; [now apply last_get|eauto].
    + intros H. destruct (H st (or_introl eq_refl)) as (a & G & a' & E). apply last_get in G. fold (name_to_schema d) in G.
      destruct (proj2 IH) as (l & L); [intros x I; apply H; now right|]. rewrite G, E, L. cbn. eauto.
Qed.

(** exactly which plans can be grounded, given the order in which the set of actions is iterated *)
Theorem C86_plan_exact : forall d pl, (forall a, In a (d_actions d) -> proper_schema a) ->
  ((exists l, plan_instantiate pl d = Ok l) <->
   forall st, In st pl -> exists a, last_named (fst st) (d_actions d) a /\ can_ground a (snd st)).
Proof.
  intros d pl P. rewrite ground_steps. split; intros H st I; destruct (H st I) as (a & L & G); exists a; (split; [exact L|]);
    assert (Ia : In a (d_actions d)) by (destruct L as (l1 & l2 & -> & _); apply in_or_app; right; now left).
  - now apply (C86_action a (snd st) (P a Ia)).
  - now apply (C86_action a (snd st) (P a Ia)) in G.
Qed.
Print Assumptions C86_plan_exact.

(** and whatever the order *)
Theorem C86_every_order : forall s d pl, parse_domain_fresh s = Ok d ->
  ((forall acts, Permutation (d_actions d) acts -> exists l, plan_instantiate pl (in_order d acts) = Ok l) <->
   forall st, In st pl -> (exists a, In a (d_actions d) /\ a_name a = fst st)
     /\ forall a, In a (d_actions d) -> a_name a = fst st -> can_ground a (snd st)).
Proof.
  intros s d pl E. assert (P : forall acts, Permutation (d_actions d) acts -> forall a, In a (d_actions (in_order d acts)) -> proper_schema a).
  { intros acts Q a I. cbn [in_order d_actions] in I. apply (C86_parsed_schemas s d); auto. now apply (Permutation_in a (Permutation_sym Q)). }
  split.
  - intros H st Hst. split.
    + pose proof (H _ (Permutation_refl _)) as G. destruct (proj1 (C86_plan_exact _ _ (P _ (Permutation_refl _))) G st Hst) as (a & (l1 & l2 & Q & N & _) & _).
      cbn [in_order d_actions] in Q. exists a. split; [rewrite Q; apply in_or_app; right; now left|exact N].
    + intros a Ha N. destruct (some_last a _ Ha) as (acts & Q & L). pose proof (H acts Q) as G.
      destruct (proj1 (C86_plan_exact _ _ (P _ Q)) G st Hst) as (b & B & C). cbn [in_order d_actions] in B. rewrite N in L.
      apply last_get in L, B. rewrite L in B. now injection B as <-.
  - intros H acts Q. apply (C86_plan_exact _ _ (P _ Q)). intros st Hst. destruct (H st Hst) as ((a & Ha & N) & A). cbn [in_order d_actions].
    destruct (has_last (fst st) acts) as (b & B). { rewrite <- N. apply in_map. eapply Permutation_in; eauto. }
    exists b. split; [exact B|]. destruct B as (l1 & l2 & F & Nb & _). apply A; auto.
    apply (Permutation_in b (Permutation_sym Q)). rewrite F. apply in_or_app. right. now left.
Qed.
Print Assumptions C86_every_order.

(** a parsed domain with two actions of one name *)
Definition two_named : string :=
  "(define (domain d) (:constants k) (:predicates (p ?x))
     (:action a :parameters (?x) :precondition (p ?x) :effect (not (p ?x)))
     (:action a :parameters () :precondition (p k) :effect (not (p k))))".
Example C86_order_ex : exists d a b, parse_domain_fresh two_named = Ok d /\ d_actions d = [a; b] /\ a_name a = a_name b
  /\ (exists l, plan_instantiate [("a", [])] d = Ok l) /\ (exists l, plan_instantiate [("a", [("k", None)])] (in_order d [b; a]) = Ok l)
  /\ plan_instantiate [("a", [])] (in_order d [b; a]) = Err ValueError.
Proof.
  destruct (parse_domain_fresh two_named) as [d|e] eqn:E; [|vm_compute in E; discriminate]. vm_compute in E. injection E as <-.
  do 3 eexists. split; [reflexivity|]. split; [reflexivity|]. split; [reflexivity|].
  split; [eexists; vm_compute; reflexivity|]. split; [eexists; vm_compute; reflexivity|vm_compute; reflexivity].
Qed.

(** C19, exactly, for every parsed domain: which checked plans can be grounded *)
Theorem C19_exact : forall s d p pl, parse_domain_fresh s = Ok d -> plan_check pl d p = Ok tt ->
  ((exists l, plan_instantiate pl d = Ok l) <->
   forall st a, In st pl -> last_named (fst st) (d_actions d) a -> ~ has_conditional a /\ ~ clash a (snd st)).
Proof.
  intros s d p pl E C. rewrite C86_plan_exact by (intros a; now apply (C86_parsed_schemas s d)). rewrite C18_exact in C. split.
  - intros H st a I L. destruct (H st I) as (b & B & _ & X & Y). apply last_get in L, B. rewrite L in B. injection B as <-. auto.
  - intros H st I. destruct (C st I) as (a & L & N & _). exists a. split; [exact L|]. destruct (H st a I L) as [X Y]. split; auto.
Qed.
Print Assumptions C19_exact.
Example C19_order_ex : exists d p, parse_domain_fresh two_named = Ok d /\ plan_check [("a", []); ("a", [])] d p = Ok tt.
Proof.
  destruct (parse_domain_fresh two_named) as [d|e] eqn:E; [|vm_compute in E; discriminate]. vm_compute in E. injection E as <-.
  eexists. exists (mkProblem "p" None "d" None [] [] (FPred "p" []) None). split; [reflexivity|]. vm_compute. reflexivity.
Qed.
