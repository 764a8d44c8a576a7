(** Schedules in which calls may overlap, but no call begins while another has already begun to change
    sys.tracebacklimit. *)
From Coq Require Import List.
From Verif Require Import Traceback Threads Spec_Threads.
Import ListNotations.

(** a call that has at most read the limit, or has ended *)
Definition not_changing (t : tcall) : Prop := idle t \/ exists old, snd t = TZero old.

Inductive begins_clear : limit * list tcall -> list nat -> Prop :=
| clear_end : forall st, begins_clear st []
| clear_step : forall st n sched,
    (forall t m u, nth_error (snd st) n = Some t -> snd t = TRead ->
       nth_error (snd st) m = Some u -> m <> n -> not_changing u) ->
    begins_clear (one_step tstep st n) sched -> begins_clear st (n :: sched).
