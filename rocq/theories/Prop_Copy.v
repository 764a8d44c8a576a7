(** C69: an object can be made anew from its public attributes. *)
From Coq Require Import String List Bool ZArith.
From Verif Require Import Py Names Reqs Logic Validation Core Lexer Parser Built Spec_Core Spec_Copy Py_facts Logic_facts CoreEq_facts
  Order_facts Copy_facts CopyText_facts.
Import ListNotations.
Open Scope string_scope.
Open Scope list_scope.

(** Full property: calling the constructor of any object with the object's own attributes, which
    are made anew in the same way, succeeds and gives an object equal to it, with the same
    attributes.  Here the new object is even the same value: it has the same operands in the same
    order. *)
Theorem C69_conditions :
  (forall t, made_term t -> copy_term t = Ok t) /\
  (forall f, made f -> copy f = Ok f) /\
  (forall f, made f -> exists g, copy f = Ok g /\ form_eqb f g = true).
Proof.
  split; [exact copy_made_term|]. split; [exact copy_made|]. intros f H. exists f. split; [now apply copy_made|].
  apply form_eqb_refl.
Qed.
Print Assumptions C69_conditions.

Theorem C69_parts :
  (forall a, made_action a -> copy_action a = Ok a) /\
  (forall d, made_derived d -> copy_derived d = Ok d) /\
  (forall m, made_metric m -> copy_metric m = Ok m).
Proof. split; [exact copy_made_action|]. split; [exact copy_made_derived|exact copy_made_metric]. Qed.
Print Assumptions C69_parts.

Lemma distinct_NoDupE l : distinct_keys l -> NoDupE atom_eqb (map fst l).
Proof. induction l as [|[k v] l IH]; cbn; intros H; constructor; tauto. Qed.
Lemma domain_again d : made_domain d -> copy_domain d = Ok d /\ (functions_dict_keys d -> domain_eqb d d = true).
Proof.
  intros H. split; [now apply copy_made_domain|]. intros F. apply domain_eqb_refl. split; [|now apply distinct_NoDupE].
  destruct H as (n & rs & ty & cs & ps & dps & fs & acts & M & _).
  apply mk_domain_inv in M as (_ & _ & _ & T & _). eapply mk_types_keys; eauto.
Qed.
Theorem C69_domain : forall d, made_domain d ->
  copy_domain d = Ok d /\ (functions_dict_keys d -> domain_eqb d d = true).
Proof. exact domain_again. Qed.
Print Assumptions C69_domain.

Lemma problem_again p : made_problem p ->
  exists q, copy_problem p = Ok q /\ shows_same p q /\
    ((forall d, p_domain p = Some d -> functions_dict_keys d) -> problem_eqb p q = true).
Proof.
  intros H. eexists. split; [now apply copy_made_problem|]. unfold shows_same, get_domain, get_domain_name, get_requirements.
  cbn [p_name p_domain p_domain_name p_reqs p_objects p_init p_goal p_metric]. split.
  - repeat split; auto; destruct (p_domain p); auto.
  - intros F. apply made_problem_parts in H as (_ & D & _).
    assert (K : problem_dicts_ok p).
    { unfold problem_dicts_ok. destruct (p_domain p) as [d|]; auto. split; [|now apply distinct_NoDupE, F].
      destruct (D d eq_refl) as (n & rs & ty & cs & ps & dps & fs & acts & M & _).
      apply mk_domain_inv in M as (_ & _ & _ & T & _). eapply mk_types_keys; eauto. }
    pose proof (problem_eqb_refl p K) as E. rewrite <- E. unfold problem_eqb, get_domain_name, get_requirements.
    cbn [p_name p_domain p_domain_name p_reqs p_objects p_init p_goal p_metric]. now destruct (p_domain p).
Qed.
Theorem C69_problem : forall p, made_problem p ->
  exists q, copy_problem p = Ok q /\ shows_same p q /\
    ((forall d, p_domain p = Some d -> functions_dict_keys d) -> problem_eqb p q = true).
Proof. exact problem_again. Qed.
Print Assumptions C69_problem.

(** What the parsers return is made in this way *)
Theorem C69_parsed :
  (forall s d, parse_domain_fresh s = Ok d -> made_domain d /\ copy_domain d = Ok d) /\
  (forall s p, parse_problem s = Ok p -> made_problem p /\
     exists q, copy_problem p = Ok q /\ shows_same p q /\ problem_eqb p q = true).
Proof.
  split.
  - intros s d H. apply parsed_domain_made in H. split; auto. now apply copy_made_domain.
  - intros s p H. pose proof (parsed_problem_made _ _ H) as M. split; auto.
    destruct (problem_again p M) as (q & C & S & E). exists q. split; auto. split; auto. apply E.
    intros d D. exfalso. apply Problem_facts.parse_problem_inv in H as (n & dn & l & _ & R).
    apply Problem_facts.problem_rule_inv in R as (o1 & o2 & inits & g & o5 & rs & os & init & goal & m & _ & _ & _ & _ & _ & _ & K).
    unfold mk_problem in K. apply bind_Ok in K as (n' & _ & K). apply bind_Ok in K as ((d', dn') & H1 & K).
    apply bind_Ok in K as (rs' & _ & K). apply bind_Ok in K as ([] & _ & K). apply bind_Ok in K as ([] & _ & K).
    cbn [parse_domain_and_name] in H1. apply bind_Ok in H1 as (x & _ & H1). inversion H1; subst. inversion K; subst. discriminate.
Qed.
Print Assumptions C69_parsed.

(** ** cases *)
Definition text : string := "(define (domain d) (:requirements :typing :conditional-effects :numeric-fluents :existential-preconditions :derived-predicates) (:types t - object u - t) (:constants k - u) (:predicates (p ?x - t) (q)) (:functions (f ?x - t)) (:action a :parameters (?x - t) :precondition (and (p ?x) (and (q) (p k)) (> (f ?x) 2)) :effect (and (when (q) (not (p ?x))) (increase (f k) 1))) (:derived (q) (exists (?y - u) (p ?y))))".
Definition text_p : string := "(define (problem e) (:domain d) (:requirements :typing) (:objects a - t b - u) (:init (p a) (not (p b)) (= (f a) 3)) (:goal (and (p b) (not (p a)))) (:metric minimize (+ (f a) 2)))".
Example texts_are_read : (exists d, parse_domain_fresh text = Ok d /\ length (d_actions d) = 1 /\ length (d_derived d) = 1)
  /\ (exists p, parse_problem text_p = Ok p /\ length (p_init p) = 3).
Proof.
  split.
  - destruct (parse_domain_fresh text) as [d|] eqn:E; [|exfalso; revert E; vm_compute; discriminate].
    exists d. split; auto. revert E. vm_compute. intros [= <-]. auto.
  - destruct (parse_problem text_p) as [p|] eqn:E; [|exfalso; revert E; vm_compute; discriminate].
    exists p. split; auto. revert E. vm_compute. intros [= <-]. auto.
Qed.
(** a problem, its domain given later; the copy is equal *)
Example domain_given_later : exists d p p' q,
  parse_domain_fresh text = Ok d /\ parse_problem text_p = Ok p /\ set_domain p d = (p', Ok tt) /\ made_problem p' /\
  copy_problem p' = Ok q /\ problem_eqb p' q = true /\ p_reqs p' <> p_reqs q.
Proof.
  destruct (parse_domain_fresh text) as [d|] eqn:E; [|exfalso; revert E; vm_compute; discriminate].
  destruct (parse_problem text_p) as [p|] eqn:F; [|exfalso; revert F; vm_compute; discriminate].
  assert (S : set_domain p d = (fst (set_domain p d), Ok tt)).
  { revert E F. vm_compute. intros [= <-] [= <-]. reflexivity. }
  assert (M : made_problem (fst (set_domain p d))).
  { eapply YP_set; [| |exact S]; [eapply parsed_problem_made; eauto|eapply parsed_domain_made; eauto]. }
  destruct (problem_again _ M) as (q & C & _ & Q).
  exists d, p, (fst (set_domain p d)), q. repeat (split; [assumption||reflexivity|]).
  split.
  - apply Q. cbn. intros x [= <-]. revert E. clear. vm_compute. intros [= <-]. auto.
  - rewrite (copy_made_problem _ M) in C. inversion C; subst. revert E F. clear. vm_compute. intros [= <-] [= <-]. discriminate.
Qed.
(** the copy is equal, but it now has requirements of its own, those of the domain: it refuses a
    domain that the original accepts *)
Example the_next_domain :
  exists d1 d2 p p1 q, mk_domain "d" [TYPING] None [] [] [] [] [] = Ok d1 /\ mk_domain "d" [] None [] [] [] [] [] = Ok d2 /\
  mk_problem "e" None (Some "d") None [] [] None None = Ok p /\ set_domain p d1 = (p1, Ok tt) /\
  copy_problem p1 = Ok q /\ problem_eqb p1 q = true /\
  snd (set_domain p1 d2) = Ok tt /\ snd (set_domain q d2) = Err PDDLValidationError.
Proof. do 5 eexists. repeat (split; [vm_compute; reflexivity|]). vm_compute. reflexivity. Qed.
