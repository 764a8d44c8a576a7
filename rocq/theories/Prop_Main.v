(** C55: the command line tool. *)
From Coq Require Import String List Bool Permutation.
From Verif Require Import Py Names Reqs Logic Validation Core Lexer Show Parser Main.
From Verif Require Import Spec Spec_Core Spec_Format Py_facts Names_facts Core_facts Types_facts ProblemText_facts DomainRead_facts
  Format_facts FormatDomain_facts Twice_facts Raise_facts RaiseParse_facts Main_facts Prop_Raise Prop_Twice Prop_Format.
Import ListNotations.
Open Scope string_scope.
Open Scope list_scope.

(** a problem that agrees with a domain: it names it (in upper or lower case), asks for requirements
    that the domain has, and uses its types *)
Definition agrees (p : problem) (d : domain) : Prop :=
  lower (get_domain_name p) = lower (d_name d)
  /\ (forall rs, p_reqs p = Some rs -> incl rs (d_reqs d)) /\ problem_typed p d.

(** The tool ends normally exactly when the domain file is accepted, the problem file, if any, is
    accepted and agrees with the domain, and the steps of the plan file, if any, are actions of the
    domain applied to the right number of known objects.  For domains whose actions have different
    names; [q] tells whether --quiet is given. *)
Theorem C55_success : forall q df pf lf,
  (forall d, parse_domain_fresh df = Ok d -> NoDup (map a_name (d_actions d))) ->
  (snd (cli q df pf lf) = Ok tt <->
   exists d, parse_domain_fresh df = Ok d
     /\ forall ptext, pf = Some ptext ->
        exists p, parse_problem ptext = Ok p /\ agrees p d
          /\ forall ltext, lf = Some ltext ->
             exists pl, parse_plan ltext = Ok pl /\ forall st, In st pl -> known_step d p st).
Proof.
  intros q df pf lf N. unfold cli. rewrite bindW_lift. destruct (parse_domain_fresh df) as [d|e] eqn:D.
  2:{ split; [discriminate|]. now intros (d & X & _). }
  pose proof (parsed_built _ _ D) as B. specialize (N d eq_refl).
  destruct (show_domain_total d B) as (ds & DS). rewrite DS, bindW_lift, bindW_print. cbn [snd].
  transitivity (forall ptext, pf = Some ptext -> exists p, parse_problem ptext = Ok p /\ agrees p d
          /\ forall ltext, lf = Some ltext ->
             exists pl, parse_plan ltext = Ok pl /\ forall st, In st pl -> known_step d p st).
  2:{ split; [eauto|]. now intros (d' & [= <-] & H). }
  destruct pf as [pt|]; [|split; [discriminate|reflexivity]].
  rewrite bindW_lift. destruct (parse_problem pt) as [p|e] eqn:P.
  2:{ split; [discriminate|]. intros H. destruct (H pt eq_refl) as (p & X & _). congruence. }
  pose proof (problem_check_Ok p d B) as A. fold (agrees p d) in A. rewrite bindW_lift.
  transitivity (agrees p d /\ forall ltext, lf = Some ltext ->
     exists pl, parse_plan ltext = Ok pl /\ forall st, In st pl -> known_step d p st).
  2:{ split; [intros H ptext [= <-]; eauto|]. intros H. destruct (H pt eq_refl) as (p' & X & Y). assert (p' = p) by congruence. now subst p'. }
  destruct (problem_check p d) as [[]|e].
  2:{ split; [discriminate|]. intros [H _]. now apply A in H. }
  rewrite bindW_print. cbn [snd].
  transitivity (forall ltext, lf = Some ltext ->
     exists pl, parse_plan ltext = Ok pl /\ forall st, In st pl -> known_step d p st); [|tauto].
  destruct lf as [lt|]; [|split; [discriminate|reflexivity]].
  rewrite bindW_lift. destruct (parse_plan lt) as [pl|e] eqn:L.
  2:{ split; [discriminate|]. intros H. destruct (H lt eq_refl) as (pl & X & _). congruence. }
  pose proof (plan_check_Ok d p pl N) as K. rewrite bindW_lift. transitivity (forall st, In st pl -> known_step d p st).
  - rewrite <- K. destruct (plan_check pl d p) as [[]|e]; cbn; [tauto|split; discriminate].
  - split; [intros H ltext [= <-]; eauto|]. intros H. destruct (H lt eq_refl) as (pl' & X & Y). assert (pl' = pl) by congruence. now subst pl'.
Qed.
Print Assumptions C55_success.

(** What it writes to standard output when it ends normally: the text of each object, in order, each
    followed by a newline *)
Theorem C55_output : forall df,
  (forall lf out, cli false df None lf = (out, Ok tt) ->
     exists d ds, parse_domain_fresh df = Ok d /\ show_domain d = Ok ds /\ out = [ds +++ nl])
  /\ (forall pt out, cli false df (Some pt) None = (out, Ok tt) ->
     exists d ds p, parse_domain_fresh df = Ok d /\ show_domain d = Ok ds /\ parse_problem pt = Ok p
       /\ out = [ds +++ nl; show_problem p +++ nl])
  /\ (forall pt lt out, cli false df (Some pt) (Some lt) = (out, Ok tt) ->
     exists d ds p pl, parse_domain_fresh df = Ok d /\ show_domain d = Ok ds /\ parse_problem pt = Ok p
       /\ parse_plan lt = Ok pl
       /\ out = [ds +++ nl; show_problem p +++ nl; show_plan pl +++ nl]).
Proof.
  intros df. unfold cli. destruct (parse_domain_fresh df) as [d|e] eqn:D.
  2:{ split; [|split]; intros *; rewrite bindW_lift; discriminate. }
  destruct (show_domain_total d (parsed_built _ _ D)) as (ds & DS).
  split; [|split]; [|intros pt|intros pt lt]; rewrite bindW_lift; cbv iota; rewrite DS, bindW_lift; cbv iota; rewrite bindW_print; cbn [fst snd app].
  - intros lf out [= <-]. eauto.
  - rewrite bindW_lift. destruct (parse_problem pt) as [p|e]; [|discriminate].
    rewrite bindW_lift. destruct (problem_check p d); [|discriminate]. rewrite bindW_print. intros out [= <-]. eauto 8.
  - rewrite bindW_lift. destruct (parse_problem pt) as [p|e]; [|discriminate].
    rewrite bindW_lift. destruct (problem_check p d); [|discriminate]. rewrite bindW_print, bindW_lift.
    destruct (parse_plan lt) as [pl|]; [|discriminate]. rewrite bindW_lift. destruct (plan_check pl d p); [|discriminate].
    intros out [= <-]. cbn. eauto 10.
Qed.
Print Assumptions C55_output.

(** However it ends, it only writes texts of objects that were accepted and checked. *)
Theorem C55_accepted_only : forall df pf lf t, In t (fst (cli false df pf lf)) ->
  exists d, parse_domain_fresh df = Ok d
  /\ ((exists ds, show_domain d = Ok ds /\ t = ds +++ nl)
      \/ exists pt p, pf = Some pt /\ parse_problem pt = Ok p /\ agrees p d
         /\ (t = show_problem p +++ nl
             \/ exists lt pl, lf = Some lt /\ parse_plan lt = Ok pl /\ plan_check pl d p = Ok tt /\ t = show_plan pl +++ nl)).
Proof.
  intros df pf lf t. unfold cli. rewrite bindW_lift. destruct (parse_domain_fresh df) as [d|e] eqn:D; [|intros []].
  pose proof (parsed_built _ _ D) as B. destruct (show_domain_total d B) as (ds & DS). rewrite DS, bindW_lift, bindW_print. cbn [fst].
  intros [<-|H]; exists d; (split; [reflexivity|]); [eauto|]. right.
  destruct pf as [pt|]; [|destruct H]. rewrite bindW_lift in H. destruct (parse_problem pt) as [p|e] eqn:P; [|destruct H].
  rewrite bindW_lift in H. destruct (problem_check p d) as [[]|] eqn:C; [|destruct H].
  apply (problem_check_Ok p d B) in C. rewrite bindW_print in H. exists pt, p. split; auto. split; auto. split; auto.
  destruct H as [<-|H]; auto. right. cbn [fst app] in H.
  destruct lf as [lt|]; [|destruct H]. rewrite bindW_lift in H. destruct (parse_plan lt) as [pl|] eqn:L; [|destruct H].
  rewrite bindW_lift in H. destruct (plan_check pl d p) as [[]|] eqn:K; [|destruct H]. destruct H as [<-|[]]. eauto 8.
Qed.
Print Assumptions C55_accepted_only.

(** --quiet writes nothing and changes nothing else *)
Theorem C55_quiet : forall df pf lf, cli true df pf lf = ([], snd (cli false df pf lf)).
Proof.
  intros. unfold cli.
  repeat match goal with
  | |- context [bindW (lift ?r) _] => rewrite !bindW_lift; destruct r as [?|?]; [|reflexivity]
  | |- _ => rewrite !bindW_print; cbn [fst snd app]
  | |- context [match ?o with Some _ => _ | None => _ end] => is_var o; destruct o; [|reflexivity]
  end; reflexivity.
Qed.
Print Assumptions C55_quiet.

(** When it does not end normally, the exceptions are those of the parsers (C54). *)
Theorem C55_errors : forall q df pf lf e, snd (cli q df pf lf) = Err e ->
  exists s, parse_domain_fresh s = Err e.
Proof.
  intros q df pf lf e H. apply C54_domain. unfold cli in H. rewrite bindW_lift in H.
  destruct (parse_domain_fresh df) as [d|e'] eqn:D.
  2:{ injection H as ->. apply C54_domain. eauto. }
  destruct (show_domain_total d (parsed_built _ _ D)) as (ds & DS). rewrite DS, bindW_lift, bindW_print in H. cbn [snd] in H.
  destruct pf as [pt|]; [|discriminate]. rewrite bindW_lift in H. destruct (parse_problem pt) as [p|e'] eqn:P.
  2:{ injection H as ->. assert (X : exists s, parse_problem s = Err e) by eauto. apply C54_problem in X. cbn in *. intuition. }
  rewrite bindW_lift in H. destruct (problem_check p d) as [[]|e'] eqn:C.
  2:{ injection H as ->. assert (X : within nameE (problem_check p d)).
      { assert (V : In PDDLValidationError nameE) by (cbn; auto).
        apply within_bind; [now apply within_check|intros _ _]. apply within_bind; [now apply within_check|intros _ _].
        apply within_bind; [apply types_dict_within|intros ty _].
        apply within_bind; [eapply within_incl; [apply check_terms_within|now apply one_incl]|intros _ _].
        apply within_bind; [eapply within_incl; [apply within_iterR; intros; apply check_form_within|now apply one_incl]|intros _ _].
        eapply within_incl; [apply check_form_within|now apply one_incl]. }
      specialize (X e C). cbn in *. intuition. }
  rewrite bindW_print in H. cbn [snd] in H. destruct lf as [lt|]; [|discriminate].
  rewrite bindW_lift in H. destruct (parse_plan lt) as [pl|e'] eqn:L.
  2:{ injection H as ->. assert (X : exists s, parse_plan s = Err e) by eauto. apply C54_plan in X. cbn in *. intuition. }
  rewrite bindW_lift in H. destruct (plan_check pl d p) as [[]|e'] eqn:K; [discriminate|].
  injection H as ->. apply plan_check_err in K. subst e. cbn. auto 8.
Qed.
Print Assumptions C55_errors.

(** Run on the texts it has written, the tool accepts them and writes the same texts again: for the
    domains and problems of C49, and domains whose actions have different names. *)
Theorem C55_again : forall df pf lf d p out1 out2 out3,
  cli false df (Some pf) (Some lf) = ([out1; out2; out3], Ok tt) ->
  parse_domain_fresh df = Ok d -> writable_domain d -> NoDup (map a_name (d_actions d)) ->
  parse_problem pf = Ok p -> writable_problem p ->
  cli false out1 (Some out2) (Some out3) = ([out1; out2; out3], Ok tt).
Proof.
  intros df pf lf d p out1 out2 out3 H D WD N P WP.
  destruct (parsed_domain_expressible _ _ D WD) as (B & X & NF). destruct (parsed_problem_expressible _ _ P WP) as (R & ND & XP).
  destruct (domain_text d B X NF) as (ds & e & S1 & S2 & S3 & S4).
  destruct (domain_read_alike d B X NF) as (ds' & e' & S1' & S2' & _ & CC & _ & AA).
  assert (ds' = ds) by congruence. subst ds'. assert (e' = e) by congruence. subst e'. clear S1' S2'.
  destruct (problem_text p R XP) as (q & Q1 & Q2).
  destruct (parse_shown_problem p R XP) as (q' & Q1' & RB). assert (q' = q) by congruence. subst q'. clear Q1'.
  assert (CK : problem_check p d = Ok tt /\ exists pl, parse_plan lf = Ok pl /\ plan_check pl d p = Ok tt
     /\ out1 = ds +++ nl /\ out2 = show_problem p +++ nl /\ out3 = show_plan pl +++ nl).
  { unfold cli in H. rewrite !bindW_lift, D, bindW_lift, S1, bindW_print, bindW_lift, P, bindW_lift in H.
    destruct (problem_check p d) as [[]|]; [|discriminate]. rewrite bindW_print, bindW_lift in H.
    destruct (parse_plan lf) as [pl|]; [|discriminate]. rewrite bindW_lift in H.
    destruct (plan_check pl d p) as [[]|] eqn:K; [|discriminate]. cbn in H. injection H as <- <- <-. split; [reflexivity|]. exists pl. auto 8. }
  destruct CK as (CK & pl & L & K & -> & -> & ->). clear H.
  pose proof (parsed_built _ _ S2) as BE.
  assert (CK' : problem_check q e = Ok tt) by exact (problem_check_again p d q e B BE S3 RB ND CK).
  assert (K' : plan_check pl e q = Ok tt) by exact (plan_check_again pl p d q e N AA CC (rb_objects _ _ RB) K).
  destruct (newline_read ds) as (D1 & _). destruct (newline_read (show_problem p)) as (_ & D2 & _).
  destruct (newline_read (show_plan pl)) as (_ & _ & D3).
  assert (D1' : parse_domain_fresh (ds +++ nl) = Ok e) by (unfold parse_domain_fresh; rewrite D1; exact S2).
  unfold cli. rewrite D1', bindW_lift, S4, bindW_lift, bindW_print, D2, Q1, bindW_lift, bindW_lift, CK', bindW_print.
  rewrite D3, (parsed_plan_again _ _ L), bindW_lift, bindW_lift, K', Q2. reflexivity.
Qed.
Print Assumptions C55_again.

(** ** Example: a run on three files; the plan is not executable, which the tool does not check *)
Definition main_domain : string :=
  "(define (domain d) (:requirements :typing) (:types t) (:predicates (p ?x - t) (q ?x - t))
     (:action a :parameters (?x - t) :precondition (p ?x) :effect (and (q ?x) (not (p ?x)))))".
Definition main_problem : string := "(define (problem m) (:domain D) (:objects o - t) (:init (q o)) (:goal (and (p o))))".
Example C55_ex : exists out d p,
  cli false main_domain (Some main_problem) (Some "(a o) (a o)") = (out, Ok tt) /\ length out = 3
  /\ parse_domain_fresh main_domain = Ok d /\ writable_domain d /\ NoDup (map a_name (d_actions d))
  /\ parse_problem main_problem = Ok p /\ writable_problem p
  /\ snd (cli false main_domain (Some main_problem) (Some "(a o) (a p)")) = Err PDDLValidationError.
Proof.
  destruct (parse_domain_fresh main_domain) as [d|] eqn:D; [|vm_compute in D; discriminate].
  destruct (parse_problem main_problem) as [p|] eqn:P; [|vm_compute in P; discriminate].
  destruct (cli false main_domain (Some main_problem) (Some "(a o) (a o)")) as [out r] eqn:C.
  exists out, d, p. vm_compute in C. injection C as <- <-. split; [reflexivity|]. split; [reflexivity|]. split; [reflexivity|].
  vm_compute in D. injection D as <-. vm_compute in P. injection P as <-. split; [|split; [|split; [|split]]].
  - constructor; cbn [d_types d_reqs d_functions d_derived d_actions].
    + intros t q X. cbn in X. destruct X as [X|[]]; inversion X; subst; cbn; tauto.
    + intros _. unfold Spec.typing_on. cbn. tauto.
    + intros f v [].
    + intros x [].
    + intros a [<-|[]]. split; [|split].
      * intros v [X|[]]. injection X as <-. unfold Spec_Print.one_type. cbn. auto.
      * intros f X. injection X as <-. split; [cbn; auto|discriminate].
      * intros f X. injection X as <-. split; [cbn; auto|discriminate].
  - repeat constructor. intros [].
  - reflexivity.
  - split; [cbn; auto|discriminate].
  - vm_compute. reflexivity.
Qed.
