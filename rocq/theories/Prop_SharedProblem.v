(** C88 for problem parsers.  A schedule is any list of thread numbers; a thread makes one access of the
    parser's attribute each time its number comes up. *)
From Coq Require Import String List Bool.
From Verif Require Import Py Names Reqs Logic Validation Core Lexer TypedList Parser Shared.
From Verif Require Import Spec_Parse Shared_facts.
Import ListNotations.
Open Scope string_scope.
Open Scope list_scope.

(** A call that no other thread interrupts is the call of the sequential model. *)
Theorem C88_problem_alone : forall s d, snd (alone (parse_problem_prog s) d) = parse_problem_from d s.
Proof. exact alone_parse_problem. Qed.

(** Every thread has its own parser: a thread that has finished has the problem, or the exception, that it
    would have obtained alone. *)
Theorem C88_problem_own_parsers : forall sched texts i d r s,
  nth_error (run_own_problems sched texts) i = Some (d, Done r) -> nth_error texts i = Some s ->
  r = parse_problem s.
Proof.
  intros sched texts i d r s H T. assert (V : map verdict (run_own_problems sched texts) = map verdict (map (fun s => ([] : ostate, parse_problem_prog s)) texts)) by apply own_verdict.
  apply (map_nth_error verdict) in H. rewrite V, map_map in H. rewrite (map_nth_error _ _ _ T) in H. unfold verdict in H. cbn [fst snd alone] in H.
  pose proof (alone_parse_problem s []) as A. injection H as H. rewrite H in A. exact A.
Qed.

(** Every call finishes, with one parser or several. *)
Theorem C88_problem_finishes : forall s, exists n, forall sched texts i,
  nth_error texts i = Some s -> n <= count_occ PeanoNat.Nat.eq_dec sched i ->
  (exists r, nth_error (snd (run_shared_problems sched texts)) i = Some (Done r))
  /\ (exists d, nth_error (run_own_problems sched texts) i = Some (d, Done (parse_problem s))).
Proof.
  intros s. destruct (bounded_parse_problem s) as [n B]. exists n. intros sched texts i T L. split.
  - eapply shared_finishes; [|exact B|exact L]. cbn [snd]. now apply map_nth_error.
  - destruct (own_finishes sched (map (fun s => ([] : ostate, parse_problem_prog s)) texts) i [] (parse_problem_prog s) n) as (d & r & E); auto.
    { now rewrite (map_nth_error _ _ _ T). }
    exists d. change (nth_error (run_own_problems sched texts) i = Some (d, Done r)) in E. now rewrite <- (C88_problem_own_parsers sched texts i d r s E T).
Qed.

Definition text_a := "(define (problem p) (:domain d) (:objects a b) (:init (q a)) (:goal (q b)))".
Definition text_c := "(define (problem p) (:domain d) (:objects c) (:init (q c)) (:goal (q c)))".
(** One parser for all threads: the property fails.  Both calls return, and the first problem has the
    objects of the second text. *)
Theorem C88_problem_refuted : ~ (forall sched texts i p p0 s,
  nth_error (snd (run_shared_problems sched texts)) i = Some (Done (Ok p)) -> nth_error texts i = Some s ->
  parse_problem s = Ok p0 -> problem_eqb p p0 = true).
Proof.
  intros C. specialize (C [0; 1; 0; 0; 0; 1; 1; 1] [text_a; text_c] 0).
  destruct (nth_error (snd (run_shared_problems [0; 1; 0; 0; 0; 1; 1; 1] [text_a; text_c])) 0) as [[[p|]|]|] eqn:E; vm_compute in E; try discriminate.
  destruct (parse_problem text_a) as [p0|] eqn:F; vm_compute in F; try discriminate.
  specialize (C p p0 text_a eq_refl eq_refl F). injection E as <-. injection F as <-. vm_compute in C. discriminate.
Qed.
(** A call may also raise AttributeError on a text that is accepted alone: the other thread replaces the
    objects between the test for an object and its use. *)
Theorem C88_problem_error_refuted : ~ (forall sched texts i e s,
  nth_error (snd (run_shared_problems sched texts)) i = Some (Done (Err e)) -> nth_error texts i = Some s ->
  parse_problem s = Err e).
Proof.
  intros C. specialize (C [0; 0; 0; 1; 0] [text_a; text_c] 0 AttributeError text_a eq_refl eq_refl). vm_compute in C. discriminate.
Qed.

(** What survives: when a call on a shared parser returns a problem, everything but its objects is as in
    the text; the initial facts under ==, which does not compare the types of objects.  Missing: the
    objects, for which the claim is false. *)
Theorem C88_problem_fields_partial : forall sched texts i p p0 s,
  nth_error (snd (run_shared_problems sched texts)) i = Some (Done (Ok p)) -> nth_error texts i = Some s ->
  parse_problem s = Ok p0 ->
  p_name p = p_name p0 /\ p_domain p = p_domain p0 /\ p_domain_name p = p_domain_name p0 /\ p_reqs p = p_reqs p0
  /\ (forall f, memb form_eqb f (p_init p) = memb form_eqb f (p_init p0))
  /\ p_goal p = p_goal p0 /\ p_metric p = p_metric p0.
Proof.
  intros sched texts i p p0 s H T P. unfold run_shared_problems in H.
  pose (Q := fun i p => forall s d p0, nth_error texts i = Some s -> named d -> parse_problem_from d s = Ok p0 -> same_but_objects p p0).
  assert (E : always named (Q i) (Done (Ok p))).
  { revert H. apply (shared_always named Q); [constructor|]. cbn [snd]. intros j q N. rewrite nth_error_map in N. destruct (nth_error texts j) as [t|] eqn:J; [|discriminate]. injection N as <-.
    eapply always_impl; [|apply parse_problem_always]. cbv beta. intros x X s' d p1 S' N K. rewrite J in S'. injection S' as <-. exact (X d p1 N K). }
  apply (E s [] p0 T); [constructor|exact P].
Qed.

(** Threads may share a problem parser when all their texts have the same :objects section: then every
    finished call has the result it would have alone. *)
Theorem C88_same_objects : forall os sched texts i r s,
  Forall (fun s => exists n dn rs rest,
            problem_text s n dn (opt_section ":requirements" rs ++ section_sx ":objects" os :: rest)) texts ->
  nth_error (snd (run_shared_problems sched texts)) i = Some (Done r) -> nth_error texts i = Some s ->
  r = parse_problem s.
Proof.
  intros os sched texts i r s F H T. unfold run_shared_problems in H.
  pose (D := match objects_section os with Ok D => D | Err _ => [] end).
  pose (R := fun i => match nth_error texts i with Some s => parse_problem s | None => syntax end).
  apply (shared_ready D R) in H.
  - assert (E : R i = r) by (destruct H as [H|[(k & H & _)|(_ & _ & H)]]; [injection H as <-; reflexivity|discriminate|now cbn in H]). unfold R in E. rewrite T in E. congruence.
  - cbn [fst snd]. intros j q N. rewrite nth_error_map in N. unfold R. destruct (nth_error texts j) as [t|] eqn:J; [|discriminate]. injection N as <-.
    apply nth_error_In in J. rewrite Forall_forall in F. destruct (F t J) as (n & dn & rs & rest & X). eapply same_objects_ready; exact X.
Qed.

Definition text_a' := "(define (problem p2) (:domain d) (:objects a b) (:init (q b) (q a)) (:goal (and (q a) (q b))))".
Example C88_ex_same_objects : let texts := [text_a; text_a'] in
  Forall (fun s => exists n dn rs rest, problem_text s n dn (opt_section ":requirements" rs ++ section_sx ":objects" [name_sx "a"; name_sx "b"] :: rest)) texts
  /\ (exists p p', snd (run_shared_problems [0; 1; 0; 1; 0; 1; 0; 1; 1; 1] texts) = [Done (Ok p); Done (Ok p')] /\ p_init p <> [] /\ p_objects p' <> []).
Proof.
  split.
  - repeat constructor.
    + exists "p", "d", None. eexists. vm_compute. reflexivity.
    + exists "p2", "d", None. eexists. vm_compute. reflexivity.
  - vm_compute. do 2 eexists. split; [reflexivity|]. split; discriminate.
Qed.
Example C88_ex_fields : exists p p', snd (run_shared_problems [0; 1; 0; 0; 0; 1; 1; 1] [text_a; text_c]) = [Done (Ok p); Done (Ok p')]
  /\ p_objects p = [("c", None)] /\ p_init p = [FPred "q" [TConst "a" None]].
Proof. vm_compute. do 2 eexists. repeat split. Qed.
Example C88_ex_own_problems : map snd (run_own_problems [0; 1; 0; 0; 0; 1; 1; 1; 1] [text_a; text_c]) = [Done (parse_problem text_a); Done (parse_problem text_c)].
Proof. vm_compute. reflexivity. Qed.

Print Assumptions C88_problem_alone.
Print Assumptions C88_problem_own_parsers.
Print Assumptions C88_problem_finishes.
Print Assumptions C88_problem_refuted.
Print Assumptions C88_problem_error_refuted.
Print Assumptions C88_problem_fields_partial.
Print Assumptions C88_same_objects.
