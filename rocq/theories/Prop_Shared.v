(** C88: domain parsers used by several threads.  A schedule is any list of thread numbers; a thread runs
    one callback each time its number comes up. *)
From Coq Require Import String List Bool.
From Verif Require Import Py Names Reqs Logic Validation Core Lexer TypedList Parser Shared.
From Verif Require Import Domain_facts Reuse_facts Shared_facts.
Import ListNotations.
Open Scope string_scope.
Open Scope list_scope.

(** A call that no other thread interrupts is the call of the sequential model, from any state the parser
    was left in. *)
Theorem C88_alone : forall s st, alone (parse_prog s) st = parse_domain s st.
Proof. exact alone_parse. Qed.

(** Every thread has its own parser: whatever the schedule, a thread that has finished has the domain, or
    the exception, that it would have obtained alone. *)
Theorem C88_own_parsers : forall sched texts i st r s,
  nth_error (run_own sched texts) i = Some (st, Done r) -> nth_error texts i = Some s ->
  r = parse_domain_fresh s.
Proof.
  intros sched texts i st r s H T. unfold run_own in H. pose proof (own_verdict sched (map (fun s => (init_dstate, parse_prog s)) texts)) as V.
  apply (map_nth_error verdict) in H. rewrite V, map_map in H. rewrite (map_nth_error _ _ _ T) in H. unfold verdict in H. cbn in H. rewrite alone_parse in H.
  unfold parse_domain_fresh. injection H as H. now rewrite H.
Qed.

(** Every call finishes: a thread that is given enough turns has its result, whatever the other threads do
    between them. *)
Theorem C88_finishes : forall s, exists n, forall sched texts i,
  nth_error texts i = Some s -> n <= count_occ PeanoNat.Nat.eq_dec sched i ->
  (exists r, nth_error (snd (run_shared sched texts)) i = Some (Done r))
  /\ (exists st, nth_error (run_own sched texts) i = Some (st, Done (parse_domain_fresh s))).
Proof.
  intros s. destruct (bounded_parse s) as [n B]. exists n. intros sched texts i T L. split.
  - eapply shared_finishes; [|exact B|exact L]. cbn [snd]. now apply map_nth_error.
  - destruct (own_finishes sched (map (fun s => (init_dstate, parse_prog s)) texts) i init_dstate (parse_prog s) n) as (st & r & E); auto.
    { now rewrite (map_nth_error _ _ _ T). }
    exists st. change (nth_error (run_own sched texts) i = Some (st, Done r)) in E. now rewrite <- (C88_own_parsers sched texts i st r s E T).
Qed.

(** With a lock around the calls on a shared parser (the threads run one after another, each until it has
    finished), each gets what C34 says of a parser that is used again. *)
Theorem C88_locked : forall texts, exists n, forall pre i post s,
  NoDup (pre ++ i :: post) -> nth_error texts i = Some s ->
  let schedule := flat_map (fun j => repeat j n) (pre ++ i :: post) in
  let earlier := flat_map (fun j => match nth_error texts j with Some t => [t] | None => [] end) pre in
  nth_error (snd (run_shared schedule texts)) i = Some (Done (snd (parse_domain s (after_calls earlier init_dstate)))).
Proof.
  intros texts. destruct (bounded_all texts) as [n B]. exists n. intros pre i post s N T.
  destruct (fold_locked texts n _ B N init_dstate (map parse_prog texts)) as (_ & _ & K); [intros; apply nth_error_map|]. exact (K pre i post s eq_refl T).
Qed.

(** One parser for all threads: the property fails.  A text that parses alone is rejected when another
    thread parses the same text. *)
Theorem C88_refuted : ~ (forall sched texts i r s,
  nth_error (snd (run_shared sched texts)) i = Some (Done r) -> nth_error texts i = Some s ->
  r = parse_domain_fresh s).
Proof.
  intros C. specialize (C [0; 1; 0; 1] ["(define (domain a) (:requirements :typing) (:types t))"; "(define (domain a) (:requirements :typing) (:types t))"] 1 (Err AssertionError) _ eq_refl eq_refl).
  vm_compute in C. discriminate.
Qed.

Definition typed_text := "(define (domain a) (:requirements :typing) (:types t) (:predicates (p ?x - t)) (:action m :parameters (?x - t) :precondition (p ?x) :effect (p ?x)))".
Definition untyped_text := "(define (domain b) (:predicates (p ?x)) (:action m :parameters (?x) :precondition (p ?x) :effect (p ?x)))".
(** It also fails silently: both calls return a domain, and the first one is not the domain of its text. *)
Theorem C88_silent_refuted : ~ (forall sched texts i d d0 s,
  nth_error (snd (run_shared sched texts)) i = Some (Done (Ok d)) -> nth_error texts i = Some s ->
  parse_domain_fresh s = Ok d0 -> domain_eqb d d0 = true).
Proof.
  intros C. specialize (C [0; 0; 0; 0; 1; 1; 0; 0; 1; 1] [typed_text; untyped_text] 0).
  destruct (nth_error (snd (run_shared [0; 0; 0; 0; 1; 1; 0; 0; 1; 1] [typed_text; untyped_text])) 0) as [[[d|]|]|] eqn:E; vm_compute in E; try discriminate.
  destruct (parse_domain_fresh typed_text) as [d0|] eqn:F; vm_compute in F; try discriminate.
  specialize (C d d0 typed_text eq_refl eq_refl F). injection E as <-. injection F as <-. vm_compute in C. discriminate.
Qed.

(** What survives of it: when a call on a shared parser returns a domain, then its name, requirements,
    types, constants, predicates and functions are those of the text.  Missing: actions and derived
    predicates, for which the claim is false. *)
Theorem C88_declarations_partial : forall sched texts i d d0 s,
  nth_error (snd (run_shared sched texts)) i = Some (Done (Ok d)) -> nth_error texts i = Some s ->
  parse_domain_fresh s = Ok d0 ->
  d_name d = d_name d0 /\ d_reqs d = d_reqs d0 /\ d_types d = d_types d0 /\ d_constants d = d_constants d0
  /\ d_predicates d = d_predicates d0 /\ d_functions d = d_functions d0.
Proof.
  intros sched texts i d d0 s H T P. unfold run_shared in H.
  pose (Q := fun i d => forall s st st' d0, nth_error texts i = Some s -> parse_domain s st = (st', Ok d0) -> same_declarations d d0).
  assert (E : every (X := dstate) (Q i) (Done (Ok d))).
  { revert H. apply (shared_every Q). cbn [snd]. intros j p N. rewrite nth_error_map in N. destruct (nth_error texts j) as [t|] eqn:J; [|discriminate]. injection N as <-.
    generalize (parse_every t). set (R := fun d => _). intros V. assert (M : forall d, R d -> Q j d). { intros x X s' st st' d1 S' K. rewrite J in S'. injection S' as <-. exact (X st st' d1 K). }
    clearbody R. revert V. generalize (parse_prog t). clear - M. intros p. induction p as [[a|e]|f k IH]; cbn; auto. }
  unfold parse_domain_fresh in P. destruct (parse_domain s init_dstate) as [st' r] eqn:K. cbn in P. subst r. exact (E s _ _ _ T K).
Qed.

(** The schedule above for [C88_declarations_partial] and [C88_own_parsers]: interleaved calls that finish. *)
Example C88_ex_shared : exists d d', map (fun p => match p with Done r => Some r | _ => None end) (snd (run_shared [0; 0; 0; 0; 1; 1; 0; 0; 1; 1] [typed_text; untyped_text])) = [Some (Ok d); Some (Ok d')]
  /\ parse_domain_fresh untyped_text = Ok d' /\ d_predicates d = [("p", [TVar {| v_name := "x"; v_tags := ["t"] |}])].
Proof. vm_compute. do 2 eexists. repeat split. Qed.
Example C88_ex_own : map (fun w => match snd w with Done r => Some r | _ => None end) (run_own [0; 0; 0; 0; 1; 1; 0; 0; 1; 1] [typed_text; untyped_text]) = [Some (parse_domain_fresh typed_text); Some (parse_domain_fresh untyped_text)].
Proof. vm_compute. reflexivity. Qed.

Example C88_ex_locked : NoDup ([1] ++ 0 :: []) /\ snd (run_shared [1; 1; 1; 1; 0; 0; 0; 0; 0; 0] [typed_text; untyped_text]) = [Done (parse_domain_fresh typed_text); Done (parse_domain_fresh untyped_text)].
Proof. split; [repeat constructor; cbn; intuition discriminate|]. vm_compute. reflexivity. Qed.

Print Assumptions C88_alone.
Print Assumptions C88_own_parsers.
Print Assumptions C88_finishes.
Print Assumptions C88_locked.
Print Assumptions C88_refuted.
Print Assumptions C88_silent_refuted.
Print Assumptions C88_declarations_partial.
