(** Model of parser calls that are stopped by an exception from outside (KeyboardInterrupt), seen
    from sys.tracebacklimit (parser/base.py:48-69). *)
From Coq Require Import List Bool ZArith.
From Verif Require Import Traceback Threads.
Import ListNotations.
Open Scope list_scope.

(** [k] steps of a call of parser/base.py:61-68, one access of sys.tracebacklimit each *)
Fixpoint call_steps (k : nat) (l : limit) (t : tcall) : limit * tcall :=
  match k with 0 => (l, t) | S k' => let '(l', t') := tstep l t in call_steps k' l' t' end.

(** parser/base.py:62-68: the exception arrives after [k] steps.  Inside the try block it makes the
    finally block run, elsewhere nothing is run any more.  Between two accesses a block can be
    entered; [entered] says whether that has happened: after line 61 the try block (line 62), after
    line 65 or the exception of line 64 the finally block (line 66). *)
Definition stopped_call (l : limit) (o : outcome) (k : nat) (entered : bool) : limit :=
  let '(l', (o', pc)) := call_steps k l (o, TRead) in
  match pc with
  | TRead | TDone => l'
  | TZero old => if entered then fst (tstep l' (o', TFinally old)) else l'
  | TParse old => fst (tstep l' (o', TFinally old))
  | TFinally old => if entered then l' else fst (tstep l' (o', TFinally old))
  end.

(** how one call of parser/base.py:44-46 comes to its end: by itself, or stopped *)
Inductive end_of_call : Type := Ends (o : outcome) | Stops (o : outcome) (k : nat) (entered : bool).
(** the value of sys.tracebacklimit after one such call (parser/base.py:48-69) *)
Definition one_call (l : limit) (c : end_of_call) : limit :=
  match c with Ends o => call_parser l o | Stops o k entered => stopped_call l o k entered end.
(** and after a history of calls of any parsers *)
Definition some_calls (l : limit) (h : list end_of_call) : limit := fold_left one_call h l.
