(** C39: parser calls that are stopped from outside. *)
From Coq Require Import List Bool ZArith.
From Verif Require Import Traceback Threads Stopped.
Import ListNotations.
Open Scope list_scope.

(** the only moment at which a stopped call loses a number: the finally block has begun and has not
    yet assigned, which is after exactly three accesses *)
Definition in_finally (c : end_of_call) : Prop :=
  match c with Ends _ => False | Stops _ k entered => k = 3 /\ entered = true end.

Lemma steps_done : forall k l o, call_steps k l (o, TDone) = (l, (o, TDone)).
Proof. induction k; intros; [reflexivity|]. cbn. apply IHk. Qed.

Lemma one_call_exact : forall z c,
  one_call (LInt z) c = match c with
                        | Stops Returns 3 true => LNone
                        | Stops Raises 3 true => LInt 0
                        | _ => LInt z
                        end.
Proof.
  intros z [o|o k entered]; [destruct o; reflexivity|]. unfold one_call, stopped_call.
  destruct k as [|[|[|[|k]]]]; try (destruct o, entered; reflexivity).
  cbn [call_steps tstep]. rewrite steps_done. destruct o, entered; reflexivity.
Qed.

(** a number survives every history of calls, stopped anywhere else *)
Theorem C39_stopped_partial : forall (z : Z) (h : list end_of_call),
  (forall c, In c h -> ~ in_finally c) -> some_calls (LInt z) h = LInt z.
Proof.
  intros z h. induction h as [|c h IH]; intros H; [reflexivity|]. unfold some_calls. cbn [fold_left].
  assert (E : one_call (LInt z) c = LInt z).
  { rewrite one_call_exact. specialize (H c (or_introl eq_refl)). destruct c as [o|o k e]; [reflexivity|]. cbn in H.
    destruct k as [|[|[|[|k]]]], o, e; try reflexivity; exfalso; now apply H. }
  rewrite E. apply IH. intros x X. apply H. now right.
Qed.
Print Assumptions C39_stopped_partial.

(** and each call stopped at that moment loses it, unless it was the 0 that is left behind *)
Theorem C39_stopped_exact : forall (z : Z) (c : end_of_call),
  one_call (LInt z) c = LInt z <-> ~ in_finally c \/ (z = 0%Z /\ exists e, c = Stops Raises 3 e).
Proof.
  intros z c. rewrite one_call_exact. destruct c as [o|o k e]; cbn; [split; [left; tauto|reflexivity]|].
  destruct k as [|[|[|[|k]]]], o, e; (split; [intros E|intros X]); try reflexivity;
    try (left; intros [A B]; discriminate); try discriminate E;
    try (injection E as <-; right; split; [reflexivity|eexists; reflexivity]);
    destruct X as [X|[X [e Y]]]; try (exfalso; apply X; split; reflexivity); try discriminate Y; now subst.
Qed.
Print Assumptions C39_stopped_exact.

(** what is there after any history is the old value, 0 or None *)
Theorem C39_stopped_values : forall (before : limit) (h : list end_of_call),
  let now := some_calls before h in now = before \/ now = LInt 0 \/ now = LNone.
Proof.
  intros before h. cbv zeta. revert before. induction h as [|c h IH]; intros before; [now left|].
  unfold some_calls. cbn [fold_left]. fold (some_calls (one_call before c) h).
  assert (E : one_call before c = before \/ one_call before c = LInt 0 \/ one_call before c = LNone).
  { destruct c as [o|o k e].
    - unfold one_call, call_parser. destruct before, o; cbn; tauto.
    - unfold one_call, stopped_call. destruct k as [|[|[|[|k]]]].
      1-4: destruct before, o, e; cbn; tauto.
      cbn [call_steps tstep]. rewrite steps_done. destruct before, o; cbn; tauto. }
  destruct (IH (one_call before c)) as [H|H]; [rewrite H; exact E|now right].
Qed.
Print Assumptions C39_stopped_values.

Theorem C39_stopped_refuted : ~ (forall (z : Z) (h : list end_of_call), some_calls (LInt z) h = LInt z).
Proof. intros H. discriminate (H 10%Z [Stops Returns 3 true]). Qed.
Print Assumptions C39_stopped_refuted.

Example C39_stopped_ex :
  let h := [Stops Returns 2 false; Ends Raises; Stops Returns 3 false; Stops Raises 1 true; Ends Returns] in
  (forall c, In c h -> ~ in_finally c) /\ some_calls (LInt 10) h = LInt 10
  /\ some_calls Unset h = LInt 0 /\ some_calls (LInt 10) (h ++ [Stops Raises 3 true]) = LInt 0.
Proof.
  cbv zeta. split; [|repeat split; reflexivity].
  intros c [<-|[<-|[<-|[<-|[<-|[]]]]]]; cbn; intros []; discriminate.
Qed.
