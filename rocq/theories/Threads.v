(** Model of what several threads of one interpreter do to the state they share: the attribute
    sys.tracebacklimit (parser/base.py) and the cached hashes (helpers/cache_hash.py).

    A thread is a small program; each of its steps is one read or one write of the shared state,
    and a schedule says which thread makes the next step.  What the threads compute in between
    is not modelled: it touches nothing that is shared. *)
From Coq Require Import String List Bool ZArith.
From Verif Require Import Py CacheHash Traceback.
Import ListNotations.
Open Scope list_scope.

(** run a schedule: [step] makes one step of one thread, the n-th of the list *)
Section Schedule.
  Context {S T : Type} (step : S -> T -> S * T).
  (** one step of the [n]-th thread; a number that is no thread does nothing *)
  Definition one_step (st : S * list T) (n : nat) : S * list T :=
    match nth_error (snd st) n with
    | Some t => let '(s', t') := step (fst st) t in (s', update (snd st) n t')
    | None => st
    end.
  (** a whole schedule *)
  Definition run_schedule (st : S * list T) (sched : list nat) : S * list T :=
    fold_left one_step sched st.
End Schedule.

(** * parser/base.py:48-69 _call_parser: where a thread is, and its local variable *)
Inductive tpc : Type :=
| TRead                       (* before line 61 *)
| TZero (old : option Z)      (* before line 63 *)
| TParse (old : option Z)     (* before lines 64-65 *)
| TFinally (old : option Z)   (* before lines 67-68 *)
| TDone.

(** a call whose parse ends as said *)
Definition tcall := (outcome * tpc)%type.

(** parser/base.py:61-68, one access of sys.tracebacklimit at a time *)
Definition tstep (l : limit) (t : tcall) : limit * tcall :=
  let '(o, pc) := t in
  match pc with
  | TRead => (l, (o, TZero (getattr_limit l)))
  | TZero old => (LInt 0, (o, TParse old))
  | TParse old => (match o with Returns => LNone | Raises => l end, (o, TFinally old))
  | TFinally old => (match old with Some z => LInt z | None => l end, (o, TDone))
  | TDone => (l, t)
  end.

(** threads that are about to call a parser *)
Definition tcalls (os : list outcome) : list tcall := map (fun o => (o, TRead)) os.

(** * helpers/cache_hash.py *)

(** where a call of hash() is: cache_hash.py:33 (the test), :34 (evaluating [fn(self)]: the hashes
    of the instances still to be asked for and those already received; storing the result when
    none is left), :35 (the read of the entry) *)
Inductive stage : Type :=
| HTest
| HEval (todo : list nat) (received : list Z)
| HFetch.

(** what a thread does.  [HHash]: the stack of active hash() calls, innermost first.
    [HState]: cache_hash.py:55-61 on an instance.  [HCopy]: copy.copy, which is __getstate__ and
    then __setstate__ on a new instance with the same [__dict__] (cache_hash.py:90-93: line 92,
    then line 93). *)
Inductive hthread : Type :=
| HHash (stack : list (nat * stage))
| HState (i : nat)
| HCopy (i : nat)
| HTestDel (a : nat)
| HDel (a : nat)
| HReturned (z : Z)      (* hash() returned *)
| HFinished              (* the other operations *)
| HFailed.               (* AttributeError *)

(** hash() returns [z] to the call below it *)
Definition deliver (z : Z) (stack : list (nat * stage)) : hthread :=
  match stack with
  | [] => HReturned z
  | (j, HEval (_ :: ks) zs) :: r => HHash ((j, HEval ks (zs ++ [z])) :: r)
  | _ => HFailed
  end.

(** the entry "__hash" of a [__dict__] *)
Definition entry (p : proc) (a : nat) : option Z :=
  match nth_error (pr_cells p) a with Some c => ce_hash c | None => None end.

Section HashThreads.
  (** the undecorated [__hash__], as in CacheHash.v *)
  Variable fn : Z -> string -> Z -> list Z -> Z.

  (** cache_hash.py:32-35, 55-61, 90-93, one access of a [__dict__] at a time *)
  Definition hstep (p : proc) (t : hthread) : proc * hthread :=
    match t with
    | HHash ((i, s) :: r) =>
        match lookup p i with
        | None => (p, deliver 0 r)
        | Some (cls, a, c) =>
            match s with
            | HTest => (p, HHash ((i, match ce_hash c with
                                      | Some _ => HFetch
                                      | None => HEval (ce_kids c) []
                                      end) :: r))
            | HEval (k :: ks) zs => (p, HHash ((k, HTest) :: (i, s) :: r))
            | HEval [] zs => (set_hash p a (Some (fn (pr_seed p) cls (ce_data c) zs)),
                              HHash ((i, HFetch) :: r))
            | HFetch => (p, match ce_hash c with
                            | Some z => deliver z r
                            | None => HFailed
                            end)
            end
        end
    | HHash [] => (p, HFailed)
    | HState i => (getstate p i, HFinished)
    | HCopy i => (getstate p i, match lookup p i with
                                | Some (_, a, _) => HTestDel a
                                | None => HFinished
                                end)
    | HTestDel a => (p, match entry p a with Some _ => HDel a | None => HFinished end)
    | HDel a => match entry p a with
                | Some _ => (set_hash p a None, HFinished)
                | None => (p, HFailed)
                end
    | _ => (p, t)
    end.
End HashThreads.

(** what a thread is asked to do *)
Inductive task : Type := AskHash (i : nat) | AskState (i : nat) | AskCopy (i : nat).
(** a thread that is about to do it *)
Definition start_task (t : task) : hthread :=
  match t with
  | AskHash i => HHash [(i, HTest)]
  | AskState i => HState i
  | AskCopy i => HCopy i
  end.
