(** C86: which plans can be grounded, and what is raised otherwise. *)
From Coq Require Import String List Bool.
From Verif Require Import Py Names Reqs Logic Validation Core Lexer Parser Built Spec Spec_Core Spec_Text Spec_Instantiate.
From Verif Require Import Py_facts Names_facts Core_facts Action_facts Domain_facts Action_facts GD_facts Format_facts FormatDomain_facts Instantiate_facts.
Import ListNotations.
Open Scope string_scope.
Open Scope list_scope.

(** ** one action *)
(** it can be grounded exactly when as many constants are given as it has parameters, it has no
    conditional effects, and no predicate gets two terms of one name with different types *)
Theorem C86_action : forall a cs, proper_schema a ->
  ((exists a', action_instantiate a (map (fun c => TConst (fst c) (snd c)) cs) = Ok a') <-> can_ground a cs).
Proof.
  intros a cs P. change (map (fun c => TConst (fst c) (snd c)) cs) with (map const_term cs).
  pose proof (ground_verdict a cs P) as V. destruct (action_instantiate a (map const_term cs)) as [a'|e].
  - split; auto. eauto.
  - split; [intros (a' & X); discriminate|]. intros (L & C & K). destruct V as [[_ [X|X]]|(_ & _ & X)]; tauto.
Qed.
Print Assumptions C86_action.
(** what is raised otherwise *)
Theorem C86_action_error : forall a cs e, proper_schema a ->
  action_instantiate a (map (fun c => TConst (fst c) (snd c)) cs) = Err e ->
  e = ValueError /\ (length cs <> length (a_params a) \/ clash a cs)
  \/ e = AttributeError /\ length cs = length (a_params a) /\ has_conditional a.
Proof.
  intros a cs e P H. change (map (fun c => TConst (fst c) (snd c)) cs) with (map const_term cs) in H.
  pose proof (ground_verdict a cs P) as V. rewrite H in V. exact V.
Qed.
Print Assumptions C86_action_error.

(** ** plans *)
(** the steps are grounded one by one; the first that cannot be decides what is raised; an action
    that the domain does not have raises ValueError *)
Theorem C86_plan_partial : forall d pl, NoDup (map a_name (d_actions d)) ->
  (forall l, plan_instantiate pl d = Ok l <-> Forall2 (fun st a => step_gives d st (Ok a)) pl l)
  /\ (forall e, plan_instantiate pl d = Err e <->
        exists before st after l, pl = before ++ st :: after
          /\ Forall2 (fun st a => step_gives d st (Ok a)) before l /\ step_gives d st (Err e)).
Proof.
  intros d pl N.
  assert (G : forall st r, step_gives d st r <-> (match dict_get String.eqb (fst st) (name_to_schema d) with
       | None => Err ValueError
       | Some a => action_instantiate a (map const_term (snd st)) end) = r).
  { intros st r. rewrite step_gives_is by auto. split; auto. }
  assert (F : forall pl l, Forall2 (fun st a => step_gives d st (Ok a)) pl l <->
     Forall2 (fun st a => (match dict_get String.eqb (fst st) (name_to_schema d) with
       | None => Err ValueError
       | Some a => action_instantiate a (map const_term (snd st)) end) = Ok a) pl l).
  { intros q l. split; induction 1; constructor; auto; now apply G. }
  split.
  - intros l. rewrite F. unfold plan_instantiate. split.
    + apply mapR_Ok.
    + induction 1 as [|x y q l E _ IH]; cbn; auto. rewrite E. cbn. now rewrite IH.
  - intros e. unfold plan_instantiate. rewrite mapR_first_Err. split.
    + intros (b & x & a & l & -> & H & E). exists b, x, a, l. split; auto. split; [now apply F|]. now apply G.
    + intros (b & x & a & l & -> & H & E). exists b, x, a, l. split; auto. split; [now apply F|]. now apply G.
Qed.
Print Assumptions C86_plan_partial.

(** ** of a parsed domain *)
Theorem C86_parsed_schemas : forall s d a, parse_domain_fresh s = Ok d -> In a (d_actions d) -> proper_schema a.
Proof.
  intros s d a H I. apply parsed_domain_parts in H as (n & l & T & P). destruct (pp_actions _ _ P a I) as (body & s1 & s2 & _ & D & _).
  apply action_def_st in D as (an & ps & bd & vs & b & _ & Pm & Bd & K).
  apply action_parameters_ok in Pm as (qs & _ & -> & Kq & Nq & _). apply action_body_inv in Bd as (x & y & _ & Bp & Be).
  unfold mk_action in K. apply bind_Ok in K as (n' & Nm & K). inversion K; subst a. clear K.
  apply parse_name_Ok' in Nm as [-> Ln]. split; [|split; [exact Ln|]].
  - cbn [a_params]. exists (map snd qs). rewrite map_map. split; auto. clear - Kq Nq. rewrite map_map.
    replace (map (fun x => v_name (snd x)) qs) with (map fst qs); auto.
    induction Kq as [|kv qs E F IH]; cbn; auto. inversion Nq; subst. rewrite E, IH; auto.
  - cbn [a_pre a_eff]. intros f [[= <-]|[= <-]]; [eapply emptyor_pregd_built; eauto|eapply emptyor_effect_built; eauto].
Qed.
Print Assumptions C86_parsed_schemas.
(** a plan can be grounded exactly when each of its steps is an action of the domain that can be
    grounded with the constants of the step *)
Theorem C86_parsed_partial : forall s d pl, parse_domain_fresh s = Ok d -> NoDup (map a_name (d_actions d)) ->
  ((exists l, plan_instantiate pl d = Ok l) <->
   forall st, In st pl -> exists a, In a (d_actions d) /\ a_name a = fst st /\ can_ground a (snd st)).
Proof.
  intros s d pl H N. destruct (C86_plan_partial d pl N) as [P _]. split.
  - intros (l & E). apply P in E. intros st I. clear P. induction E as [|x y q l E _ IH]; [destruct I|]. destruct I as [<-|I]; auto.
    destruct E as [(a & J & An & E)|[_ E]]; [|discriminate]. exists a. split; auto. split; auto.
    apply C86_action; [eapply C86_parsed_schemas; eauto|]. eauto.
  - intros F. assert (X : exists l, Forall2 (fun st a => step_gives d st (Ok a)) pl l).
    { clear P. induction pl as [|st pl IH]; [exists []; constructor|]. destruct (F st (or_introl eq_refl)) as (a & J & An & C).
      apply C86_action in C as (a' & E); [|eapply C86_parsed_schemas; eauto].
      destruct (IH (fun x K => F x (or_intror K))) as (l & Fl). exists (a' :: l). constructor; auto. left. exists a. auto. }
    destruct X as (l & X). exists l. now apply P.
Qed.
Print Assumptions C86_parsed_partial.

(** ** False of the code *)
(** a plan that passes Plan.check can still not be grounded, even without conditional effects: the
    constants of a plan file have no types, those of the domain have *)
Definition door_text : string :=
  "(define (domain rooms) (:requirements :typing) (:types room) (:constants hall - room)
    (:predicates (door ?x - room ?y - room) (seen ?x - room))
    (:action look :parameters (?x - room) :precondition (door ?x hall) :effect (seen ?x)))".
Definition house_text : string :=
  "(define (problem p) (:domain rooms) (:requirements :typing) (:objects kitchen - room) (:init (door kitchen hall)) (:goal (seen kitchen)))".
Definition hall_plan : string := "(look hall)".
Definition kitchen_plan : string := "(look kitchen)".
Theorem C86_refuted : ~ (forall s t u d p pl, parse_domain_fresh s = Ok d -> parse_problem t = Ok p -> parse_plan u = Ok pl ->
  (forall a, In a (d_actions d) -> ~ has_conditional a) -> plan_check pl d p = Ok tt ->
  exists l, plan_instantiate pl d = Ok l).
Proof.
  intros H. destruct (parse_domain_fresh door_text) as [d|e] eqn:E; [|vm_compute in E; discriminate].
  destruct (parse_problem house_text) as [p|e] eqn:F; [|vm_compute in F; discriminate].
  destruct (parse_plan hall_plan) as [pl|e] eqn:G; [|vm_compute in G; discriminate].
  destruct (H _ _ _ _ _ _ E F G) as (l & L).
  - vm_compute in E. injection E as <-. cbn [d_actions]. intros a [<-|[]] (g & (f & B & W) & C). cbn in B.
    destruct B as [[= <-]|[= <-]]; inversion W; subst; destruct C as [(? & ? & C)|(? & ? & C)]; discriminate.
  - vm_compute in E, F, G. injection E as <-. injection F as <-. injection G as <-. reflexivity.
  - vm_compute in E, G. injection E as <-. injection G as <-. vm_compute in L. discriminate.
Qed.
Print Assumptions C86_refuted.
(** the hypotheses hold of this domain; one plan can be grounded, the other clashes, a third has an
    unknown action *)
Example C86_ex : exists d pl pl', parse_domain_fresh door_text = Ok d /\ NoDup (map a_name (d_actions d))
  /\ parse_plan kitchen_plan = Ok pl /\ parse_plan hall_plan = Ok pl'
  /\ (forall st, In st pl -> exists a, In a (d_actions d) /\ a_name a = fst st /\ can_ground a (snd st))
  /\ (exists a, In a (d_actions d) /\ a_name a = "look" /\ clash a [("hall", None)])
  /\ plan_instantiate pl' d = Err ValueError /\ plan_instantiate [("go", [])] d = Err ValueError.
Proof.
  destruct (parse_domain_fresh door_text) as [d|e] eqn:E; [|vm_compute in E; discriminate].
  destruct (parse_plan kitchen_plan) as [pl|e] eqn:F; [|vm_compute in F; discriminate].
  destruct (parse_plan hall_plan) as [pl'|e] eqn:G; [|vm_compute in G; discriminate].
  exists d, pl, pl'. split; auto. split; [vm_compute in E; injection E as <-; cbn; repeat constructor; intros []|].
  split; auto. split; auto. split.
  { apply (C86_parsed_partial _ _ _ E).
    - vm_compute in E. injection E as <-. cbn. repeat constructor. intros [].
    - vm_compute in E, F. injection E as <-. injection F as <-. vm_compute. eauto. }
  split.
  { vm_compute in E. injection E as <-. eexists. split; [left; reflexivity|]. split; [reflexivity|].
    exists (FPred "door" [TVar (mkVar "x" ["room"]); TConst "hall" (Some "room")]), [TVar (mkVar "x" ["room"]); TConst "hall" (Some "room")],
      [TConst "hall" None; TConst "hall" (Some "room")].
    split; [eexists; split; [left; reflexivity|constructor]|]. split; [left; eauto|]. split.
    - constructor; [|constructor; [constructor|constructor]].
      apply (SF_param _ _ 0 (mkVar "x" ["room"]) (mkVar "x" ["room"]) ("hall", None)); try reflexivity. split; [reflexivity|tauto].
    - exists (TConst "hall" None), (TConst "hall" (Some "room")). repeat split; cbn; auto. intros X. destruct (proj2 (X "room") (or_introl eq_refl)). }
  split; vm_compute in E, G; injection E as <-; injection G as <-; reflexivity.
Qed.

(** ** C19, exactly *)
(** a plan that passes Plan.check can be grounded exactly when none of its actions has conditional
    effects and none of its steps makes types clash *)
Theorem C19_exact_partial : forall s d p pl, parse_domain_fresh s = Ok d -> NoDup (map a_name (d_actions d)) -> plan_check pl d p = Ok tt ->
  ((exists l, plan_instantiate pl d = Ok l) <->
   forall st a, In st pl -> In a (d_actions d) -> a_name a = fst st -> ~ has_conditional a /\ ~ clash a (snd st)).
Proof.
  intros s d p pl H N C. rewrite (C86_parsed_partial s d pl H N). pose proof (proj1 (plan_check_Ok d p pl N) C) as C0. clear C. rename C0 into C.
  assert (U : forall a b, In a (d_actions d) -> In b (d_actions d) -> a_name a = a_name b -> a = b).
  { intros a b Ia Ib E. assert (dict_get String.eqb (a_name a) (name_to_schema d) = Some a) as A by (apply schema_get; auto).
    assert (dict_get String.eqb (a_name a) (name_to_schema d) = Some b) as B by (apply schema_get; auto). congruence. }
  split.
  - intros F st a I J E. destruct (F st I) as (b & K & Eb & _ & X & Y). assert (b = a) by (apply U; congruence). now subst.
  - intros F st I. destruct (C st I) as (a & J & E & L & _). exists a. split; auto. split; auto.
    destruct (F st a I J E) as [X Y]. split; auto.
Qed.
Print Assumptions C19_exact_partial.
Example C19_exact_ex : exists d p pl, parse_domain_fresh door_text = Ok d /\ NoDup (map a_name (d_actions d)) /\ parse_problem house_text = Ok p
  /\ parse_plan kitchen_plan = Ok pl /\ plan_check pl d p = Ok tt /\ exists l, plan_instantiate pl d = Ok l.
Proof.
  destruct (parse_domain_fresh door_text) as [d|e] eqn:E; [|vm_compute in E; discriminate].
  destruct (parse_problem house_text) as [p|e] eqn:G; [|vm_compute in G; discriminate].
  destruct (parse_plan kitchen_plan) as [pl|e] eqn:F; [|vm_compute in F; discriminate].
  exists d, p, pl. vm_compute in E, F, G. injection E as <-. injection F as <-. injection G as <-.
  split; auto. split; [cbn; repeat constructor; intros []|]. split; auto. split; auto. split; [reflexivity|]. vm_compute. eauto.
Qed.
