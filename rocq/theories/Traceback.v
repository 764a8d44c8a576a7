(** Model of the handling of sys.tracebacklimit in pddl/parser/base.py:48-69.

    The attribute is [Unset] (the interpreter's initial state), [None] or a number.  The parse
    itself is abstracted to whether it raises: nothing below it touches the attribute. *)
From Coq Require Import List ZArith.
Import ListNotations.

(** the attribute sys.tracebacklimit (parser/base.py:61-68) *)
Inductive limit : Type := Unset | LNone | LInt (z : Z).

(** whether parser.parse returns (parser/base.py:64) *)
Inductive outcome : Type := Returns | Raises.

(** getattr(sys, "tracebacklimit", None) *)
Definition getattr_limit (l : limit) : option Z :=
  match l with Unset | LNone => None | LInt z => Some z end.

(** base.py:48-69 _call_parser: the value of sys.tracebacklimit after the call.  The assignment
    of None is skipped when the parse raises; the finally clause always runs. *)
Definition call_parser (before : limit) (o : outcome) : limit :=
  let old := getattr_limit before in
  let during := LInt 0 in
  let after_try := match o with Returns => LNone | Raises => during end in
  match old with Some z => LInt z | None => after_try end.

(** a history of calls of any parsers *)
Definition calls (before : limit) (h : list outcome) : limit := fold_left call_parser h before.
