(** What the properties of threads speak about. *)
From Coq Require Import String List Arith.
From Verif Require Import CacheHash Traceback Threads.
Import ListNotations.

(** a call that has not begun or has ended *)
Definition idle (t : tcall) : Prop := snd t = TRead \/ snd t = TDone.

(** a schedule in which a call begins only while no other is under way *)
Inductive apart : limit * list tcall -> list nat -> Prop :=
| apart_end : forall st, apart st []
| apart_step : forall st n sched,
    (forall t m u, nth_error (snd st) n = Some t -> snd t = TRead ->
       nth_error (snd st) m = Some u -> m <> n -> idle u) ->
    apart (one_step tstep st n) sched -> apart st (n :: sched).

(** the [__dict__]s of an instance and of the instances it refers to, directly or not *)
Inductive reached (p : proc) : nat -> nat -> Prop :=
| reached_own : forall i cls a c, lookup p i = Some (cls, a, c) -> reached p i a
| reached_kid : forall i cls b c k a, lookup p i = Some (cls, b, c) -> In k (ce_kids c) ->
    reached p k a -> reached p i a.

(** a task that leaves alone what [hash] of the instance [i] reads *)
Definition clear_of (p : proc) (i : nat) (t : task) : Prop :=
  match t with
  | AskHash _ => True
  | AskState j | AskCopy j => forall cls a c, lookup p j = Some (cls, a, c) -> ~ reached p i a
  end.

(** how often a thread's turn comes *)
Definition turns (n : nat) (sched : list nat) : nat := count_occ Nat.eq_dec sched n.
