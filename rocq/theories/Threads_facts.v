(** Facts about the threads. *)
From Coq Require Import String List Bool ZArith Arith Lia.
From Verif Require Import Py CacheHash CacheHash_facts Traceback Threads Spec_Threads.
Import ListNotations.
Open Scope list_scope.

Section Sched.
  Context {S T : Type} (step : S -> T -> S * T).

  Lemma update_length : forall A (l : list A) n x, length (update l n x) = length l.
  Proof. induction l as [|y l IH]; intros [|n] x; simpl; auto. Qed.

  (** an invariant of the state and of each thread, by its number *)
  Lemma run_invariant : forall (I : S -> Prop) (G : nat -> S -> T -> Prop),
    (forall n s t, I s -> G n s t -> I (fst (step s t)) /\ G n (fst (step s t)) (snd (step s t))) ->
    (forall n m s t u, I s -> G n s t -> G m s u -> n <> m -> G m (fst (step s t)) u) ->
    forall sched s ts, I s -> (forall n t, nth_error ts n = Some t -> G n s t) ->
    I (fst (run_schedule step (s, ts) sched)) /\
    (forall n t, nth_error (snd (run_schedule step (s, ts) sched)) n = Some t -> G n (fst (run_schedule step (s, ts) sched)) t).
  Proof.
    intros I G H1 H2 sched. unfold run_schedule.
    induction sched as [|n sched IH]; intros s ts Is Gs; [split; assumption|]. cbn [fold_left].
    unfold one_step at 2 4 6. cbn [fst snd]. destruct (nth_error ts n) as [t|] eqn:E; [|apply IH; assumption].
    pose proof (H1 n s t Is (Gs n t E)) as [I' G'].
    assert (H2' : forall m u, nth_error ts m = Some u -> n <> m -> G m (fst (step s t)) u).
    { intros m u Em N. exact (H2 n m s t u Is (Gs n t E) (Gs m u Em) N). }
    destruct (step s t) as [s' t']. cbn [fst snd] in *. apply IH; [exact I'|].
    intros m u Eu. rewrite nth_update in Eu. destruct (Nat.eqb_spec n m) as [->|N].
    - rewrite E in Eu. injection Eu as <-. exact G'.
    - exact (H2' m u Eu N).
  Qed.

  Lemma run_length : forall sched s ts, length (snd (run_schedule step (s, ts) sched)) = length ts.
  Proof.
    intros sched. unfold run_schedule. induction sched as [|n sched IH]; intros s ts; [reflexivity|]. cbn [fold_left].
    unfold one_step at 2. cbn [fst snd]. destruct (nth_error ts n) as [t|]; [|apply IH].
    destruct (step s t) as [s' t']. rewrite IH. apply update_length.
  Qed.

  Lemma run_app : forall a b st, run_schedule step st (a ++ b) = run_schedule step (run_schedule step st a) b.
  Proof. intros. unfold run_schedule. apply fold_left_app. Qed.
End Sched.

(** * sys.tracebacklimit *)
Lemma limit_values : forall os sched l0,
  let l := fst (run_schedule tstep (l0, tcalls os) sched) in
  l = l0 \/ l = LInt 0 \/ l = LNone.
Proof.
  intros os sched l0.
  apply (run_invariant tstep (fun l => l = l0 \/ l = LInt 0 \/ l = LNone)
           (fun _ _ t => match snd t with
                         | TZero (Some z) | TParse (Some z) | TFinally (Some z) => LInt z = l0 \/ z = 0%Z
                         | _ => True
                         end)).
  - intros n l [o pc] Hl G. cbn [snd] in G. destruct pc as [|old|old|old|]; cbn [tstep fst snd].
    + split; [exact Hl|]. destruct l as [| |z]; cbn; auto.
      destruct Hl as [<-|[H|H]]; [left; reflexivity|injection H as ->; right; reflexivity|discriminate].
    + split; [right; left; reflexivity|exact G].
    + split; [|exact G]. destruct o; [right; right; reflexivity|exact Hl].
    + split; [|exact Logic.I]. destruct old as [z|]; [|exact Hl]. destruct G as [G| ->]; [left; exact G|right; left; reflexivity].
    + split; [exact Hl|exact Logic.I].
  - intros n m l [o pc] u _ _ G _. exact G.
  - left; reflexivity.
  - intros n t E. unfold tcalls in E. rewrite nth_error_map in E. destruct (nth_error os n); [|discriminate].
    injection E as <-. exact Logic.I.
Qed.

(** what the attribute is while one call is under way and when none is *)
Definition calm (z : Z) (st : limit * list tcall) : Prop :=
  (Forall idle (snd st) /\ fst st = LInt z) \/
  (exists n o pc, nth_error (snd st) n = Some (o, pc) /\ (pc = TZero (Some z) \/ pc = TParse (Some z) \/ pc = TFinally (Some z)) /\
     forall m u, nth_error (snd st) m = Some u -> m <> n -> idle u).

Lemma calm_step : forall z st n, calm z st ->
  (forall t m u, nth_error (snd st) n = Some t -> snd t = TRead -> nth_error (snd st) m = Some u -> m <> n -> idle u) ->
  calm z (one_step tstep st n).
Proof.
  intros z [l ts] n C A. unfold one_step. cbn [fst snd] in *. destruct (nth_error ts n) as [[o pc]|] eqn:E; [|exact C].
  assert (L : n < length ts) by (apply nth_error_Some; congruence).
  assert (U : forall t', nth_error (update ts n t') n = Some t').
  { intros t'. rewrite nth_update, Nat.eqb_refl, E. reflexivity. }
  assert (V : forall t' m u, nth_error (update ts n t') m = Some u -> m <> n -> nth_error ts m = Some u).
  { intros t' m u. rewrite nth_update. destruct (Nat.eqb_spec n m); [congruence|auto]. }
  assert (ID : forall (t' : tcall) l', (forall m u, nth_error ts m = Some u -> m <> n -> idle u) -> idle t' -> l' = LInt z ->
             calm z (l', update ts n t')).
  { intros t' l' Q I ->. left. cbn [fst snd]. split; [|reflexivity]. apply Forall_forall. intros u Hu.
    apply In_nth_error in Hu. destruct Hu as (m & Em). destruct (Nat.eq_dec m n) as [->|N].
    - rewrite U in Em. injection Em as <-. exact I.
    - exact (Q m u (V _ _ _ Em N) N). }
  assert (BUSY : forall (o' : outcome) pc' l', (forall m u, nth_error ts m = Some u -> m <> n -> idle u) ->
             (pc' = TZero (Some z) \/ pc' = TParse (Some z) \/ pc' = TFinally (Some z)) ->
             calm z (l', update ts n (o', pc'))).
  { intros o' pc' l' Q P. right. cbn [fst snd]. exists n, o', pc'. split; [apply U|]. split; [exact P|].
    intros m u Em N. exact (Q m u (V _ _ _ Em N) N). }
  destruct C as [[F Hl]|(m & o' & pc' & Em & P & Q)]; cbn [fst snd] in *.
  - assert (Q : forall m u, nth_error ts m = Some u -> m <> n -> idle u).
    { intros m u Em _. rewrite Forall_forall in F. apply F. exact (nth_error_In _ _ Em). }
    rewrite Forall_forall in F. pose proof (F _ (nth_error_In _ _ E)) as [H|H]; cbn [snd] in H; subst pc; cbn [tstep].
    + subst l. apply BUSY; [exact Q|left; reflexivity].
    + apply ID; [exact Q|right; reflexivity|exact Hl].
  - destruct (Nat.eq_dec m n) as [->|N].
    + rewrite E in Em. injection Em as <- <-. destruct P as [->|[->| ->]]; cbn [tstep].
      * apply BUSY; auto.
      * apply BUSY; auto.
      * apply ID; [exact Q|right; reflexivity|reflexivity].
    + pose proof (Q n _ E (not_eq_sym N)) as [H|H]; cbn [snd] in H; subst pc; cbn [tstep].
      * exfalso. pose proof (A _ m _ eq_refl eq_refl Em N) as [X|X]; cbn [snd] in X; subst pc';
          destruct P as [P|[P|P]]; discriminate.
      * right. cbn [fst snd]. exists m, o', pc'. split; [rewrite nth_update; destruct (Nat.eqb_spec n m); [congruence|exact Em]|].
        split; [exact P|]. intros k u Ek Nk. destruct (Nat.eq_dec k n) as [->|Nkn].
        -- rewrite U in Ek. injection Ek as <-. right; reflexivity.
        -- exact (Q k u (V _ _ _ Ek Nkn) Nk).
Qed.

Lemma apart_calm : forall z sched st, calm z st -> apart st sched -> calm z (run_schedule tstep st sched).
Proof.
  intros z sched. unfold run_schedule. induction sched as [|n sched IH]; intros st C A; [exact C|]. cbn [fold_left].
  inversion A as [|st' n' sched' H A']; subst. apply IH; [|exact A']. apply calm_step; assumption.
Qed.

Lemma apart_unchanged : forall z os sched, apart (LInt z, tcalls os) sched ->
  Forall (fun t => snd t = TDone) (snd (run_schedule tstep (LInt z, tcalls os) sched)) ->
  fst (run_schedule tstep (LInt z, tcalls os) sched) = LInt z.
Proof.
  intros z os sched A D. destruct (apart_calm z sched (LInt z, tcalls os)) as [[_ H]|(n & o & pc & E & P & _)]; auto.
  - left. cbn [fst snd]. split; [|reflexivity]. unfold tcalls. apply Forall_forall. intros t Ht. apply in_map_iff in Ht.
    destruct Ht as (o & <- & _). left; reflexivity.
  - rewrite Forall_forall in D. specialize (D _ (nth_error_In _ _ E)). cbn [snd] in D. subst pc.
    destruct P as [P|[P|P]]; discriminate.
Qed.

(** one thread alone does what [call_parser] does *)
Lemma alone_call : forall l o, run_schedule tstep (l, tcalls [o]) [0; 0; 0; 0] = (call_parser l o, [(o, TDone)]).
Proof. intros l o. unfold run_schedule, call_parser. cbn. destruct (getattr_limit l); reflexivity. Qed.

(** * Hashes *)
Section HashFacts.
  Variable fn : Z -> string -> Z -> list Z -> Z.
  Variable p0 : proc.
  Hypothesis I0 : Inv fn p0.
  Notation undec := (undecorated_hash fn p0).

  Definition ok_frame (f : nat * stage) : Prop :=
    match snd f with
    | HEval todo zs => exists pre cls a c, lookup p0 (fst f) = Some (cls, a, c) /\ ce_kids c = pre ++ todo /\ zs = map undec pre
    | _ => True
    end.
  (** [i]: the instance whose hash was asked for *)
  Inductive ok_stack (i : nat) : list (nat * stage) -> Prop :=
  | ok_bottom : forall s, ok_frame (i, s) -> ok_stack i [(i, s)]
  | ok_push : forall k s j ks zs r, ok_frame (k, s) -> ok_stack i ((j, HEval (k :: ks) zs) :: r) ->
      ok_stack i ((k, s) :: (j, HEval (k :: ks) zs) :: r).

  Definition ok_thread (t : task) (th : hthread) : Prop :=
    match t, th with
    | AskHash i, HHash st => ok_stack i st
    | AskHash i, HReturned z => z = undec i
    | AskHash _, HFailed => True
    | AskHash _, _ => False
    | _, HHash _ => False
    | _, HReturned _ => False
    | _, _ => True
    end.

  Lemma stack_top : forall i st, ok_stack i st -> exists k s r, st = (k, s) :: r /\ ok_frame (k, s).
  Proof. intros i st H; inversion H; subst; eauto. Qed.

  Lemma deliver_ok : forall i k s r, ok_stack i ((k, s) :: r) -> ok_thread (AskHash i) (deliver (undec k) r).
  Proof.
    intros i k s r H. inversion H as [s' F|k' s' j ks zs r' F H']; subst.
    - reflexivity.
    - cbn [deliver ok_thread]. assert (N : ok_frame (j, HEval ks (zs ++ [undec k]))).
      { destruct (stack_top _ _ H') as (k0 & s0 & r0 & [= <- <- <-] & (pre & cls & a & c & L & K & Z)). cbn [fst snd] in *.
        exists (pre ++ [k]), cls, a, c. cbn [fst snd]. split; [exact L|]. split; [rewrite K, <- app_assoc; reflexivity|].
        rewrite map_app, Z. reflexivity. }
      inversion H' as [s'' F'|k'' s'' j' ks' zs' r'' F' H'']; subst.
      + apply ok_bottom; exact N.
      + apply ok_push; [exact N|exact H''].
  Qed.

  Lemma retop : forall i k s s' r, ok_stack i ((k, s) :: r) -> ok_frame (k, s') -> ok_stack i ((k, s') :: r).
  Proof.
    intros i k s s' r H F. inversion H as [s0 F0|k0 s0 j ks zs r0 F0 H0]; subst.
    - apply ok_bottom; exact F.
    - apply ok_push; [exact F|exact H0].
  Qed.

  Lemma eval_value : forall p i cls a c, same p0 p -> lookup p i = Some (cls, a, c) ->
    fn (pr_seed p) cls (ce_data c) (map undec (ce_kids c)) = undec i.
  Proof.
    intros p i cls a c S L. destruct (same_lookup _ _ _ _ _ _ (same_sym _ _ S) L) as (c' & L' & Q).
    unfold strip_hash in Q. injection Q as D K. unfold undecorated_hash at 2. cbn [plain_hash]. rewrite L'.
    rewrite (same_seed _ _ S), D, K. f_equal. apply map_ext_Forall.
    pose proof (wf_kids _ _ _ _ _ (proj1 I0) L') as W. rewrite <- K. rewrite Forall_forall in *. intros k Hk.
    symmetry. apply plain_undec; [exact (proj1 I0)|]. exact (W k Hk).
  Qed.

  Definition ok_state (p : proc) : Prop := same p0 p /\ Inv fn p.

  Lemma lookup_entry : forall p i cls a c, lookup p i = Some (cls, a, c) -> entry p a = ce_hash c.
  Proof.
    intros p i cls a c L. unfold lookup in L. unfold entry. destruct (nth_error (pr_objs p) i) as [[x b]|]; [|discriminate].
    destruct (nth_error (pr_cells p) b) as [c'|] eqn:E; [|discriminate]. injection L as -> -> ->. rewrite E. reflexivity.
  Qed.

  Lemma hstep_ok : forall p t th, ok_state p -> ok_thread t th ->
    ok_state (fst (hstep fn p th)) /\ ok_thread t (snd (hstep fn p th)).
  Proof.
    intros p t th [S I] O. destruct th as [st|i|i|a|a|z| |]; cbn [hstep].
    - destruct t as [i|i|i]; try contradiction. cbn [ok_thread] in O.
      destruct (stack_top _ _ O) as (k & s & r & -> & F).
      destruct (lookup p k) as [[[cls a] c]|] eqn:L.
      + pose proof (same_lookup _ _ _ _ _ _ (same_sym _ _ S) L) as (c0 & L0 & Q). unfold strip_hash in Q. injection Q as D K.
        destruct s as [|[|k' ks] zs|].
        * cbn [fst snd]. split; [split; assumption|]. cbn [ok_thread]. refine (retop _ _ _ _ _ O _).
          destruct (ce_hash c); cbn [ok_frame]; [exact Logic.I|]. exists [], cls, a, c0. cbn [fst snd map app]. auto.
        * cbn [fst snd]. destruct F as (pre & cls' & a' & c' & L' & K' & Z). cbn [fst snd] in *.
          rewrite L0 in L'. injection L' as <- <- <-. rewrite app_nil_r in K'.
          assert (V : fn (pr_seed p) cls (ce_data c) zs = undec k).
          { rewrite Z, <- K', K. apply eval_value with (a := a); assumption. }
          split.
          -- split; [eapply same_trans; [exact S|apply set_hash_same]|]. rewrite V, (undec_same fn _ _ k S).
             apply set_some_inv with (cls := cls) (c := c); assumption.
          -- cbn [ok_thread]. refine (retop _ _ _ _ _ O _). exact Logic.I.
        * cbn [fst snd]. split; [split; assumption|]. cbn [ok_thread]. apply ok_push; [exact Logic.I|exact O].
        * cbn [fst snd]. split; [split; assumption|]. destruct (ce_hash c) as [z|] eqn:Hc; [|exact Logic.I].
          replace z with (undec k); [apply deliver_ok with (s := HFetch); exact O|].
          rewrite (undec_same fn _ _ k S). symmetry. exact (proj2 I _ _ _ _ _ L Hc).
      + cbn [fst snd]. split; [split; assumption|]. replace 0%Z with (undec k).
        * apply deliver_ok with (s := s); exact O.
        * rewrite (undec_same fn _ _ k S). unfold undecorated_hash. cbn [plain_hash]. rewrite L. reflexivity.
    - cbn [fst snd]. destruct t as [j|j|j]; try contradiction; (split; [|exact Logic.I]);
        destruct (getstate_inv fn p i I) as [I' S']; (split; [eapply same_trans; eassumption|exact I']).
    - cbn [fst snd]. destruct t as [j|j|j]; try contradiction;
        (split; [|destruct (lookup p i) as [[[cls a] c]|]; exact Logic.I]);
        destruct (getstate_inv fn p i I) as [I' S']; (split; [eapply same_trans; eassumption|exact I']).
    - cbn [fst snd]. split; [split; assumption|]. destruct t as [j|j|j]; try contradiction; destruct (entry p a); exact Logic.I.
    - destruct t as [j|j|j]; try contradiction; destruct (entry p a); cbn [fst snd]; (split; [|exact Logic.I]);
        try (split; assumption);
        (split; [eapply same_trans; [exact S|apply set_hash_same]|apply set_none_inv; exact I]).
    - cbn [fst snd]. split; [split; assumption|exact O].
    - cbn [fst snd]. split; [split; assumption|exact O].
    - cbn [fst snd]. split; [split; assumption|exact O].
  Qed.

  Lemma start_ok : forall t, ok_thread t (start_task t).
  Proof. intros [i|i|i]; cbn; auto. apply ok_bottom; exact Logic.I. Qed.

  (** whatever the schedule, a hash that is returned is the right one *)
  Lemma threads_value : forall tasks sched n i z, nth_error tasks n = Some (AskHash i) ->
    nth_error (snd (run_schedule (hstep fn) (p0, map start_task tasks) sched)) n = Some (HReturned z) ->
    z = undec i.
  Proof.
    intros tasks sched n i z E R.
    destruct (run_invariant (hstep fn) ok_state (fun n _ th => exists t, nth_error tasks n = Some t /\ ok_thread t th))
      with (sched := sched) (s := p0) (ts := map start_task tasks) as [_ H].
    - intros m p th S (t & Et & O). destruct (hstep_ok p t th S O) as [S' O']. split; [exact S'|eauto].
    - intros m k p th u _ _ G _. exact G.
    - split; [apply same_refl|exact I0].
    - intros m th Em. rewrite nth_error_map in Em. destruct (nth_error tasks m) as [t|] eqn:Et; [|discriminate].
      injection Em as <-. exists t. split; [reflexivity|apply start_ok].
    - destruct (H _ _ R) as (t & Et & O). rewrite E in Et. injection Et as <-. exact O.
  Qed.

  (** a thread that leaves the entries alone that hash() of the instance [i] reads *)
  Definition cached (p : proc) (i : nat) : Prop :=
    forall cls a c, lookup p i = Some (cls, a, c) -> ce_hash c <> None.
  Definition ready (p : proc) (th : hthread) : Prop :=
    match th with
    | HHash st => Forall (fun f => snd f = HFetch -> cached p (fst f)) st
    | HReturned _ => True
    | _ => False
    end.
  Definition harmless (i : nat) (th : hthread) : Prop :=
    match th with
    | HState j | HCopy j => forall cls a c, lookup p0 j = Some (cls, a, c) -> ~ reached p0 i a
    | HTestDel a | HDel a => ~ reached p0 i a
    | _ => True
    end.
  Definition below (i k : nat) : Prop := forall a, reached p0 k a -> reached p0 i a.

  Lemma stack_below : forall i st, ok_stack i st -> Forall (fun f => below i (fst f)) st.
  Proof.
    intros i st H. induction H as [s F|k s j ks zs r F H IH].
    - constructor; [intros a R; exact R|constructor].
    - constructor; [|exact IH]. destruct (stack_top _ _ H) as (k0 & s0 & r0 & [= <- <- <-] & (pre & cls & a & c & L & K & Z)).
      cbn [fst snd] in *. inversion IH as [|f r' B _]; subst. intros b R. apply B. cbn [fst].
      apply reached_kid with (cls := cls) (b := a) (c := c) (k := k); [exact L| |exact R]. rewrite K. apply in_or_app. right; left; reflexivity.
  Qed.

  Lemma set_some_cached : forall p a h i, cached p i -> cached (set_hash p a (Some h)) i.
  Proof.
    intros p a h i C cls b c L. destruct (set_hash_lookup _ _ _ _ _ _ _ L) as [[_ E]|[_ L']]; [congruence|exact (C _ _ _ L')].
  Qed.

  Lemma set_none_cached : forall p a i k, same p0 p -> ~ reached p0 i a -> below i k -> cached p k -> cached (set_hash p a None) k.
  Proof.
    intros p a i k S N B C cls b c L. destruct (set_hash_lookup _ _ _ _ _ _ _ L) as [[-> _]|[_ L']]; [|exact (C _ _ _ L')].
    exfalso. apply N, B. pose proof (same_trans _ _ _ S (set_hash_same p b None)) as S'.
    destruct (same_lookup _ _ _ _ _ _ (same_sym _ _ S') L) as (c' & L' & _). exact (reached_own _ _ _ _ _ L').
  Qed.

  Lemma hstep_cached : forall p i th k, same p0 p -> harmless i th -> below i k -> cached p k -> cached (fst (hstep fn p th)) k.
  Proof.
    intros p i th k S H B C. destruct th as [[|[j s] r]|j|j|a|a|z| |]; cbn [hstep]; try exact C.
    - destruct (lookup p j) as [[[cls a] c]|]; [|exact C]. destruct s as [|[|k' ks] zs|]; cbn [fst]; try exact C.
      apply set_some_cached; exact C.
    - cbn [fst harmless] in *. unfold getstate. destruct (lookup p j) as [[[cls a] c]|] eqn:L; [|exact C].
      destruct (same_lookup _ _ _ _ _ _ (same_sym _ _ S) L) as (c' & L' & _). apply set_none_cached with (i := i); eauto.
    - cbn [fst harmless] in *. unfold getstate. destruct (lookup p j) as [[[cls a] c]|] eqn:L; [|exact C].
      destruct (same_lookup _ _ _ _ _ _ (same_sym _ _ S) L) as (c' & L' & _). apply set_none_cached with (i := i); eauto.
    - cbn [harmless] in H. destruct (entry p a); [|exact C]. cbn [fst]. apply set_none_cached with (i := i); eauto.
  Qed.

  Lemma hstep_harmless : forall p i th, same p0 p -> harmless i th -> harmless i (snd (hstep fn p th)).
  Proof.
    intros p i th S H. destruct th as [[|[j s] r]|j|j|a|a|z| |]; cbn [hstep]; try exact H; try exact Logic.I.
    - destruct (lookup p j) as [[[cls a] c]|].
      + destruct s as [|[|k' ks] zs|]; cbn [snd]; try exact Logic.I. destruct (ce_hash c); [|exact Logic.I].
        destruct r as [|[k0 [|[|k1 ks] zs|]] r]; exact Logic.I.
      + cbn [snd]. destruct r as [|[k0 [|[|k1 ks] zs|]] r]; exact Logic.I.
    - cbn [snd]. destruct (lookup p j) as [[[cls a] c]|] eqn:L; [|exact Logic.I].
      destruct (same_lookup _ _ _ _ _ _ (same_sym _ _ S) L) as (c' & L' & _). exact (H _ _ _ L').
    - cbn [snd]. destruct (entry p a); [exact H|exact Logic.I].
    - destruct (entry p a); exact Logic.I.
  Qed.

  Lemma hstep_ready_other : forall p i th u, same p0 p -> harmless i th -> ok_thread (AskHash i) u -> ready p u ->
    ready (fst (hstep fn p th)) u.
  Proof.
    intros p i th u S H O U. destruct u as [st|j|j|a|a|z| |]; cbn [ready] in *; try contradiction; auto.
    cbn [ok_thread] in O. pose proof (stack_below _ _ O) as B. rewrite Forall_forall in *. intros f Hf E.
    apply hstep_cached with (i := i); auto.
  Qed.

  Lemma hstep_ready : forall p i th, ok_state p -> ok_thread (AskHash i) th -> ready p th ->
    ready (fst (hstep fn p th)) (snd (hstep fn p th)).
  Proof.
    intros p i th [S I] O R.
    destruct th as [st|j|j|a|a|z| |]; try contradiction; [|exact Logic.I].
    cbn [ok_thread] in O. pose proof (fun k => hstep_cached p i (HHash st) k S Logic.I) as M. pose proof (stack_below _ _ O) as B.
    destruct (stack_top _ _ O) as (k & s & r & -> & F). cbn [ready] in R.
    inversion R as [|f r' R1 R2]; subst. cbn [hstep] in *.
    assert (D : forall z, ready p (deliver z r)).
    { intros z. inversion O as [s' F'|k' s' j ks zs r' F' O']; subst; cbn [deliver ready]; [exact Logic.I|].
      inversion R2; subst. constructor; [discriminate|assumption]. }
    destruct (lookup p k) as [[[cls a] c]|] eqn:L; [|apply D].
    destruct s as [|[|k' ks] zs|]; cbn [fst snd] in *.
    - cbn [ready]. constructor; [|exact R2]. cbn [fst snd]. intros H cls' a' c' L'. rewrite L in L'. injection L' as <- <- <-.
      destruct (ce_hash c); [discriminate|discriminate H].
    - cbn [ready]. constructor.
      + cbn [fst snd]. intros _ cls' a' c' L'. destruct (set_hash_lookup _ _ _ _ _ _ _ L') as [[_ E]|[N L2]]; [congruence|].
        exfalso. apply N. rewrite L in L2. injection L2; congruence.
      + inversion B as [|f' r'' _ B2]; subst. rewrite Forall_forall in *. intros f Hf H. apply M; auto.
    - cbn [ready]. constructor; [discriminate|]. constructor; [discriminate|exact R2].
    - pose proof (R1 eq_refl _ _ _ L) as H. cbn [fst] in H. destruct (ce_hash c) as [z|]; [apply D|contradiction].
  Qed.

  (** how many steps a hash() call can still take *)
  Fixpoint work (fuel i : nat) : nat :=
    match fuel with
    | O => 1
    | S f => 3 + match lookup p0 i with
                 | Some (_, _, c) => list_sum (map (fun k => S (work f k)) (ce_kids c))
                 | None => 0
                 end
    end.
  Definition steps_for (i : nat) : nat := work (S i) i.

  Lemma work_fuel : forall n f1 f2 i, i < n -> i < f1 -> i < f2 -> work f1 i = work f2 i.
  Proof.
    induction n as [|n IH]; intros f1 f2 i N L1 L2; [lia|]. destruct f1 as [|f1], f2 as [|f2]; try lia. cbn [work].
    destruct (lookup p0 i) as [[[cls a] c]|] eqn:E; [|reflexivity]. f_equal. f_equal. apply map_ext_Forall.
    pose proof (wf_kids _ _ _ _ _ (proj1 I0) E) as K. rewrite Forall_forall in *. intros k Hk. specialize (K k Hk).
    f_equal. apply IH; lia.
  Qed.

  Definition kids_work (ks : list nat) : nat := list_sum (map (fun k => S (steps_for k)) ks).

  Lemma steps_lookup : forall i cls a c, lookup p0 i = Some (cls, a, c) -> steps_for i = 3 + kids_work (ce_kids c).
  Proof.
    intros i cls a c L. unfold steps_for. cbn [work]. rewrite L. f_equal. unfold kids_work. f_equal. apply map_ext_Forall.
    pose proof (wf_kids _ _ _ _ _ (proj1 I0) L) as K. rewrite Forall_forall in *. intros k Hk. specialize (K k Hk).
    f_equal. apply (work_fuel (S k)); lia.
  Qed.

  Definition top_left (f : nat * stage) : nat :=
    match snd f with HTest => steps_for (fst f) | HEval todo _ => 2 + kids_work todo | HFetch => 1 end.
  Definition caller_left (f : nat * stage) : nat :=
    match snd f with HEval (_ :: ks) _ => 2 + kids_work ks | _ => 0 end.
  Definition left (th : hthread) : nat :=
    match th with HHash (f :: r) => top_left f + list_sum (map caller_left r) | _ => 0 end.

  Lemma hstep_left : forall p i th, ok_state p -> ok_thread (AskHash i) th -> ready p th ->
    left (snd (hstep fn p th)) < left th \/ exists z, th = HReturned z.
  Proof.
    intros p i th [S I] O R. destruct th as [st|j|j|a|a|z| |]; try contradiction; [left|right; eauto].
    cbn [ok_thread] in O. destruct (stack_top _ _ O) as (k & s & r & -> & F). cbn [ready] in R.
    inversion R as [|f r' R1 R2]; subst. cbn [hstep].
    assert (D : forall z, left (deliver z r) = list_sum (map caller_left r)).
    { intros z. inversion O as [s' F'|k' s' j ks zs r' F' O']; subst; cbn [deliver left]; reflexivity. }
    assert (P : 1 <= top_left (k, s)).
    { destruct s as [|todo zs|]; cbn [top_left fst snd]; try lia. unfold steps_for. cbn [work]. lia. }
    destruct (lookup p k) as [[[cls a] c]|] eqn:L; [|cbn [snd left]; rewrite D; lia].
    pose proof (same_lookup _ _ _ _ _ _ (same_sym _ _ S) L) as (c0 & L0 & Q). unfold strip_hash in Q. injection Q as Dt K.
    destruct s as [|[|k' ks] zs|]; cbn [snd].
    - cbn [left]. unfold top_left at 2. cbn [fst snd]. rewrite (steps_lookup _ _ _ _ L0), K.
      unfold top_left. cbn [fst snd]. destruct (ce_hash c); lia.
    - cbn [left]. unfold top_left. cbn [fst snd]. lia.
    - cbn [left map list_sum fold_right]. unfold top_left. cbn [fst snd caller_left]. unfold kids_work at 2.
      cbn [map list_sum fold_right]. fold (kids_work ks). unfold kids_work. unfold list_sum. lia.
    - pose proof (R1 eq_refl _ _ _ L) as H. cbn [fst] in H. destruct (ce_hash c) as [z|]; [|contradiction].
      cbn [left]. rewrite D. unfold top_left. cbn [fst snd]. lia.
  Qed.

  (** the [n]-th thread asks for hash() of [i], the others stay clear of it *)
  Definition hash_state (tasks : list task) (n i : nat) (st : proc * list hthread) : Prop :=
    ok_state (fst st) /\ forall m th, nth_error (snd st) m = Some th ->
      (exists t, nth_error tasks m = Some t /\ ok_thread t th) /\ harmless i th /\
      (m = n -> ok_thread (AskHash i) th /\ ready (fst st) th).

  Lemma hash_step : forall tasks n i st m, hash_state tasks n i st -> hash_state tasks n i (one_step (hstep fn) st m).
  Proof.
    intros tasks n i [p ts] m [S G]. unfold one_step. cbn [fst snd] in *. destruct (nth_error ts m) as [t|] eqn:E; [|split; assumption].
    destruct (G _ _ E) as ((tk & Et & O) & H & R). pose proof (hstep_ok p _ t S O) as [S' O'].
    pose proof (hstep_harmless p i t (proj1 S) H) as H'.
    assert (R' : m = n -> ok_thread (AskHash i) (snd (hstep fn p t)) /\ ready (fst (hstep fn p t)) (snd (hstep fn p t))).
    { intros Emn. destruct (R Emn) as [O1 R1]. split; [exact (proj2 (hstep_ok p _ t S O1))|exact (hstep_ready p _ t S O1 R1)]. }
    pose proof (fun u => hstep_ready_other p i t u (proj1 S) H) as RO.
    destruct (hstep fn p t) as [p' t']. cbn [fst snd] in *. split; [exact S'|]. cbn [fst snd]. intros q u Eq.
    rewrite nth_update in Eq. destruct (Nat.eqb_spec m q) as [->|N].
    - rewrite E in Eq. injection Eq as <-. eauto.
    - destruct (G _ _ Eq) as (A & B & C). split; [exact A|]. split; [exact B|]. intros Eqn. destruct (C Eqn) as [C1 C2]. eauto.
  Qed.

  Lemma hash_run : forall tasks n i sched st, hash_state tasks n i st -> hash_state tasks n i (run_schedule (hstep fn) st sched).
  Proof.
    intros tasks n i sched. unfold run_schedule. induction sched as [|m sched IH]; intros st H; [exact H|]. cbn [fold_left].
    apply IH, hash_step, H.
  Qed.

  Lemma hash_init : forall tasks n i, nth_error tasks n = Some (AskHash i) ->
    Forall (clear_of p0 i) tasks -> hash_state tasks n i (p0, map start_task tasks).
  Proof.
    intros tasks n i E C. split; [split; [apply same_refl|exact I0]|]. cbn [fst snd]. intros m th Em.
    rewrite nth_error_map in Em. destruct (nth_error tasks m) as [t|] eqn:Et; [|discriminate].
    injection Em as <-. split; [exists t; split; [reflexivity|apply start_ok]|]. split.
    - rewrite Forall_forall in C. specialize (C _ (nth_error_In _ _ Et)). destruct t; cbn in *; auto.
    - intros ->. rewrite E in Et. injection Et as <-. split; [apply (start_ok (AskHash i))|].
      cbn [start_task ready]. constructor; [discriminate|constructor].
  Qed.

  Lemma hash_left : forall tasks i n sched st th, hash_state tasks n i st -> nth_error (snd st) n = Some th -> left th <= turns n sched ->
    exists z, nth_error (snd (run_schedule (hstep fn) st sched)) n = Some (HReturned z).
  Proof.
    intros tasks i n sched. unfold run_schedule, turns. induction sched as [|m sched IH]; intros st th H E B.
    - destruct H as [S G]. destruct (G _ _ E) as (_ & _ & OR). destruct (OR eq_refl) as [O R]. cbn [count_occ] in B.
      destruct (hstep_left _ _ _ S O R) as [X|(z & ->)]; [lia|]. exists z. exact E.
    - cbn [fold_left count_occ] in *. pose proof (hash_step _ _ _ _ m H) as H'.
      destruct (Nat.eq_dec m n) as [->|N].
      + destruct (proj2 H _ _ E) as (_ & _ & OR). destruct (OR eq_refl) as [O R]. pose proof (hstep_left _ _ _ (proj1 H) O R) as X.
        refine (IH _ (snd (hstep fn (fst st) th)) H' _ _).
        * unfold one_step. rewrite E. destruct (hstep fn (fst st) th) as [p' t'] eqn:Y. cbn [fst snd].
          rewrite nth_update, Nat.eqb_refl, E. reflexivity.
        * destruct X as [X|(z & ->)]; [lia|]. cbn [hstep snd left]. lia.
      + refine (IH _ th H' _ _); [|lia]. unfold one_step. destruct (nth_error (snd st) m) as [t|]; [|exact E].
        destruct (hstep fn (fst st) t) as [p' t']. cbn [snd]. rewrite nth_update. destruct (Nat.eqb_spec m n); [contradiction|exact E].
  Qed.
End HashFacts.
