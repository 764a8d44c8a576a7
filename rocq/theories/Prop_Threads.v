(** C60 and C61: parsing, hashing, copying and pickling in several threads. *)
From Coq Require Import String List Bool ZArith Arith Lia.
From Verif Require Import Py CacheHash CacheHash_facts Traceback Threads Spec_Threads Threads_facts.
Import ListNotations.
Open Scope string_scope.
Open Scope list_scope.

(** ** C60: after any number of parser calls in any threads, once all of them have ended,
    sys.tracebacklimit is what it was.  False, even when it was a number (C39_partial: it is kept
    by calls made one after the other): the second call reads the 0 the first one has set, and
    writes it back last. *)
Theorem C60_refuted :
  ~ (forall (z : Z) (os : list outcome) (sched : list nat),
       let '(after, threads) := run_schedule tstep (LInt z, tcalls os) sched in
       Forall (fun t => snd t = TDone) threads -> after = LInt z).
Proof.
  intros H. specialize (H 10%Z [Returns; Returns] [0; 0; 1; 0; 0; 1; 1; 1]). cbn in H.
  assert (X : LInt 0 = LInt 10); [|discriminate X]. apply H. repeat constructor.
Qed.
Print Assumptions C60_refuted.

(** What does hold: in every schedule, at every moment, the attribute has its old value, is 0 or is None *)
Theorem C60_values_partial :
  forall (before : limit) (os : list outcome) (sched : list nat),
    let now := fst (run_schedule tstep (before, tcalls os) sched) in
    now = before \/ now = LInt 0 \/ now = LNone.
Proof. intros. apply limit_values. Qed.
Print Assumptions C60_values_partial.

(** and when no two calls overlap, a number is kept *)
Theorem C60_partial :
  forall (z : Z) (os : list outcome) (sched : list nat),
    apart (LInt z, tcalls os) sched ->
    let '(after, threads) := run_schedule tstep (LInt z, tcalls os) sched in
    Forall (fun t => snd t = TDone) threads -> after = LInt z.
Proof.
  intros z os sched A. pose proof (apart_unchanged z os sched A) as H.
  destruct (run_schedule tstep (LInt z, tcalls os) sched) as [after threads]. exact H.
Qed.
Print Assumptions C60_partial.

(** two calls that do not overlap, with a step of the first after its end and between those of
    the second *)
Example C60_ex :
  apart (LInt 10, tcalls [Returns; Raises]) [1; 1; 1; 1; 0; 1; 0; 0; 0] /\
  snd (run_schedule tstep (LInt 10, tcalls [Returns; Raises]) [1; 1; 1; 1; 0; 1; 0; 0; 0])
  = [(Returns, TDone); (Raises, TDone)].
Proof.
  split; [|reflexivity].
  repeat (apply apart_step;
    [intros t [|[|[|m]]] u E R E'; cbn in E, E' |- *; try discriminate; intros N;
     injection E as <-; try injection E' as <-; try discriminate; try contradiction;
     solve [left; reflexivity|right; reflexivity]|cbn]).
  apply apart_end.
Qed.

(** a call made by one thread alone is [call_parser] of C39 *)
Theorem C60_one_call : forall (before : limit) (o : outcome),
  run_schedule tstep (before, tcalls [o]) [0; 0; 0; 0] = (call_parser before o, [(o, TDone)]).
Proof. exact alone_call. Qed.
Print Assumptions C60_one_call.

(** ** C61: instances reached by any history can be hashed, copied and pickled in several threads
    at the same time: nothing fails.  False: __getstate__ can delete the entry between the moment
    hash() stores it and the moment it reads it back (AttributeError). *)
Theorem C61_refuted :
  ~ (forall (fn : Z -> string -> Z -> list Z -> Z) (seed : Z) (history : list op) (tasks : list task) (sched : list nat),
       let p := wo_proc (run fn (init_world seed) history) in
       ~ In HFailed (snd (run_schedule (hstep fn) (p, map start_task tasks) sched))).
Proof.
  intros H. specialize (H (fun _ _ d _ => d) 0%Z [New "Constant" 1 []] [AskHash 0; AskState 0] [0; 0; 1; 0]).
  apply H. vm_compute. left. reflexivity.
Qed.
Print Assumptions C61_refuted.

(** a copy can fail too *)
Theorem C61_copy_refuted :
  ~ (forall (fn : Z -> string -> Z -> list Z -> Z) (seed : Z) (history : list op) (tasks : list task) (sched : list nat) (n i : nat),
       let p := wo_proc (run fn (init_world seed) history) in
       nth_error tasks n = Some (AskCopy i) ->
       nth_error (snd (run_schedule (hstep fn) (p, map start_task tasks) sched)) n <> Some HFailed).
Proof.
  intros H.
  apply (H (fun _ _ d _ => d) 0%Z [New "Constant" 1 []] [AskCopy 0; AskHash 0; AskState 0] [0; 1; 1; 0; 2; 0] 0 0); reflexivity.
Qed.
Print Assumptions C61_copy_refuted.

(** What does hold: whatever the other threads do, a hash that is returned is the hash of the
    instance, as the undecorated __hash__ computes it *)
Theorem C61_value_partial :
  forall (fn : Z -> string -> Z -> list Z -> Z) (seed : Z) (history : list op) (tasks : list task) (sched : list nat) (n i : nat) (z : Z),
    let p := wo_proc (run fn (init_world seed) history) in
    nth_error tasks n = Some (AskHash i) ->
    nth_error (snd (run_schedule (hstep fn) (p, map start_task tasks) sched)) n = Some (HReturned z) ->
    z = undecorated_hash fn p i.
Proof. intros fn seed h tasks sched n i z p. apply threads_value. apply run_inv, empty_inv. Qed.
Print Assumptions C61_value_partial.

(** and hash() neither fails nor waits when the instances that are copied or pickled meanwhile are
    not among those it reads: it returns after a number of its own steps that does not depend on
    the other threads *)
Theorem C61_partial :
  forall (fn : Z -> string -> Z -> list Z -> Z) (seed : Z) (history : list op) (i : nat),
    let p := wo_proc (run fn (init_world seed) history) in
    exists steps, forall (tasks : list task) (n : nat),
      nth_error tasks n = Some (AskHash i) -> Forall (clear_of p i) tasks ->
      forall sched,
        nth_error (snd (run_schedule (hstep fn) (p, map start_task tasks) sched)) n <> Some HFailed /\
        (steps <= turns n sched ->
         nth_error (snd (run_schedule (hstep fn) (p, map start_task tasks) sched)) n
         = Some (HReturned (undecorated_hash fn p i))).
Proof.
  intros fn seed h i p. assert (I : Inv fn p) by (apply run_inv, empty_inv). exists (steps_for p i).
  intros tasks n E C sched. pose proof (hash_init fn p I tasks n i E C) as H0. split.
  - intros F. destruct (proj2 (hash_run fn p I tasks n i sched _ H0) _ _ F) as (_ & _ & OR).
    destruct (OR eq_refl) as [_ []].
  - intros L. destruct (hash_left fn p I tasks i n sched _ (HHash [(i, HTest)]) H0) as (z & R).
    + cbn [snd]. rewrite nth_error_map, E. reflexivity.
    + cbn [left top_left fst snd map list_sum fold_right]. lia.
    + rewrite R. f_equal. f_equal. exact (threads_value fn p I tasks sched n i z E R).
Qed.
Print Assumptions C61_partial.

(** two threads hash the same predicate while a third copies another constant: the hypotheses hold,
    and both get the same value *)
Definition thr_history : list op := [New "Constant" 1 []; New "Predicate" 2 [0]; New "Constant" 5 []].
Example C61_ex :
  let p := wo_proc (run (fun s _ d hs => s + d + fold_right Z.add 0 hs)%Z (init_world 3) thr_history) in
  Forall (clear_of p 1) [AskHash 1; AskHash 1; AskCopy 2] /\
  snd (run_schedule (hstep (fun s _ d hs => s + d + fold_right Z.add 0 hs)%Z)
         (p, map start_task [AskHash 1; AskHash 1; AskCopy 2]) [0; 1; 0; 2; 1; 0; 1; 0; 1; 2; 0; 0; 1; 0; 0; 0; 1; 1; 1; 1; 1])
  = [HReturned 9; HReturned 9; HFinished].
Proof.
  split; [|vm_compute; reflexivity].
  repeat constructor. cbn. intros cls a c [= <- <- <-] R.
  inversion R as [i cls a c L|i cls b c k a L K R']; subst; cbn in L.
  - discriminate.
  - injection L as <- <- <-. destruct K as [<-|[]]. inversion R' as [i cls a c L|i cls b c k a L K R'']; subst; cbn in L.
    + discriminate.
    + injection L as <- <- <-. destruct K.
Qed.
