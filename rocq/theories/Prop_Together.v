(** C60 for calls that overlap. *)
From Coq Require Import List Bool ZArith Arith Lia.
From Verif Require Import Py CacheHash CacheHash_facts Traceback Threads Spec_Threads Threads_facts Spec_Together.
Import ListNotations.

(** every call under way has read the number, and the limit is the number unless some call is about to
    restore it *)
Definition kept (z : Z) (st : limit * list tcall) : Prop :=
  (forall m u, nth_error (snd st) m = Some u ->
     idle u \/ snd u = TZero (Some z) \/ snd u = TParse (Some z) \/ snd u = TFinally (Some z)) /\
  (fst st = LInt z \/
   exists m u, nth_error (snd st) m = Some u /\ (snd u = TParse (Some z) \/ snd u = TFinally (Some z))).

Lemma kept_step z st n : kept z st ->
  (forall t m u, nth_error (snd st) n = Some t -> snd t = TRead ->
     nth_error (snd st) m = Some u -> m <> n -> not_changing u) ->
  kept z (one_step tstep st n).
Proof.
  destruct st as [l ts]. intros [K1 K2] A. unfold one_step. cbn [fst snd] in *.
  destruct (nth_error ts n) as [[o pc]|] eqn:E; [|split; assumption].
  assert (U : forall t', nth_error (update ts n t') n = Some t').
  { intros t'. rewrite nth_update, Nat.eqb_refl, E. reflexivity. }
  assert (V : forall t' m, m <> n -> nth_error (update ts n t') m = nth_error ts m).
  { intros t' m N. rewrite nth_update. destruct (Nat.eqb_spec n m); [congruence|auto]. }
  assert (P : forall t', (idle t' \/ snd t' = TZero (Some z) \/ snd t' = TParse (Some z) \/ snd t' = TFinally (Some z)) ->
            forall m u, nth_error (update ts n t') m = Some u ->
            idle u \/ snd u = TZero (Some z) \/ snd u = TParse (Some z) \/ snd u = TFinally (Some z)).
  { intros t' H m u. destruct (Nat.eq_dec m n) as [->|N].
    - rewrite U. intros [= <-]. exact H.
    - rewrite V by auto. apply K1. }
  destruct (K1 n _ E) as [[H|H]|[H|[H|H]]]; cbn [snd] in H; subst pc; cbn [tstep].
  - assert (L : l = LInt z).
    { destruct K2 as [L|(m & u & Em & Q)]; auto. exfalso. destruct (Nat.eq_dec m n) as [->|N].
      - rewrite E in Em. injection Em as <-. destruct Q; discriminate.
      - destruct (A _ m u eq_refl eq_refl Em N) as [[X|X]|[old X]]; destruct Q; congruence. }
    subst l. cbn [getattr_limit]. split; cbn [fst snd]; [apply P; auto|auto].
  - split; cbn [fst snd]; [apply P; left; right; reflexivity|]. destruct K2 as [L|(m & u & Em & Q)]; auto.
    right. exists m, u. split; auto. rewrite V; auto. intros ->. rewrite E in Em. injection Em as <-.
    destruct Q; discriminate.
  - split; cbn [fst snd]; [apply P; auto|]. right. exists n, (o, TParse (Some z)). auto.
  - split; cbn [fst snd]; [apply P; auto|]. right. exists n, (o, TFinally (Some z)). auto.
  - split; cbn [fst snd]; [apply P; left; right; reflexivity|]. auto.
Qed.
Lemma kept_run z sched : forall st, kept z st -> begins_clear st sched -> kept z (run_schedule tstep st sched).
Proof.
  unfold run_schedule. induction sched as [|n sched IH]; intros st C A; [exact C|]. cbn [fold_left].
  inversion A as [|st' n' sched' H A']; subst. apply IH; [|exact A']. apply kept_step; assumption.
Qed.
Lemma kept_start z os : kept z (LInt z, tcalls os).
Proof.
  split; cbn [fst snd]; auto. intros m u E. unfold tcalls in E. rewrite nth_error_map in E.
  destruct (nth_error os m); [|discriminate]. injection E as <-. left; left; reflexivity.
Qed.

(** Calls may overlap as long as none begins while another is between setting the limit and restoring it:
    a number is kept.  Missing: the other schedules (C60_refuted). *)
Theorem C60_overlap_partial : forall (z : Z) (os : list outcome) (sched : list nat),
  begins_clear (LInt z, tcalls os) sched ->
  let '(after, threads) := run_schedule tstep (LInt z, tcalls os) sched in
  Forall (fun t => snd t = TDone) threads -> after = LInt z.
Proof.
  intros z os sched A. pose proof (kept_run z sched _ (kept_start z os) A) as [_ K].
  destruct (run_schedule tstep (LInt z, tcalls os) sched) as [after threads]. cbn [fst snd] in K.
  intros F. destruct K as [K|(m & u & Em & Q)]; auto. rewrite Forall_forall in F.
  pose proof (F u (nth_error_In _ _ Em)). destruct Q; congruence.
Qed.
Print Assumptions C60_overlap_partial.

(** This covers the schedules of C60_partial, *)
Theorem C60_overlap_apart : forall st sched, apart st sched -> begins_clear st sched.
Proof. induction 1; constructor; auto. intros t m u E R Em N. left. eauto. Qed.
Print Assumptions C60_overlap_apart.

(** and others: both calls read the limit before either goes on, and they are interleaved afterwards *)
Example C60_ex_overlap :
  begins_clear (LInt 10, tcalls [Returns; Raises]) [0; 1; 1; 0; 0; 1; 0; 1] /\
  ~ apart (LInt 10, tcalls [Returns; Raises]) [0; 1; 1; 0; 0; 1; 0; 1] /\
  run_schedule tstep (LInt 10, tcalls [Returns; Raises]) [0; 1; 1; 0; 0; 1; 0; 1]
  = (LInt 10, [(Returns, TDone); (Raises, TDone)]).
Proof.
  split; [|split; [|reflexivity]].
  - repeat (apply clear_step;
      [intros t [|[|[|m]]] u E R E'; cbn in E, E' |- *; try discriminate; intros N;
       injection E as <-; try injection E' as <-; try discriminate; try contradiction;
       first [left; left; reflexivity|left; right; reflexivity|right; eexists; reflexivity]|cbn]).
    apply clear_end.
  - intros A. inversion A as [|? ? ? _ A1]; subst. inversion A1 as [|? ? ? H _]; subst.
    destruct (H (Raises, TRead) 0 (Returns, TZero (Some 10%Z)) eq_refl eq_refl eq_refl) as [X|X]; discriminate.
Qed.
