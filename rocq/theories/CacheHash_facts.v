(** Facts about the model of cache_hash. *)
From Coq Require Import String List Bool ZArith Arith Lia.
From Verif Require Import Py CacheHash.
Import ListNotations.
Open Scope list_scope.

Lemma nth_update : forall A (l : list A) n m x,
  nth_error (update l n x) m
  = if Nat.eqb n m then (match nth_error l m with Some _ => Some x | None => None end)
    else nth_error l m.
Proof.
  induction l as [|y l IH]; intros [|n] [|m] x; simpl; auto.
  destruct (Nat.eqb n m); reflexivity.
Qed.

Definition strip_hash (c : cell) : Z * list nat := (ce_data c, ce_kids c).

(** two states of one process that differ at most in "__hash" entries *)
Record same (p q : proc) : Prop := {
  same_seed : pr_seed p = pr_seed q;
  same_objs : pr_objs p = pr_objs q;
  same_cells : forall a, option_map strip_hash (nth_error (pr_cells p) a)
                         = option_map strip_hash (nth_error (pr_cells q) a)
}.

Lemma same_refl : forall p, same p p.
Proof. intros p; split; auto. Qed.
Lemma same_trans : forall p q r, same p q -> same q r -> same p r.
Proof.
  intros p q r [A1 A2 A3] [B1 B2 B3]; split; [congruence|congruence|].
  intros a; rewrite A3; apply B3.
Qed.
Lemma same_sym : forall p q, same p q -> same q p.
Proof. intros p q [A B C]; split; auto. Qed.

Lemma same_lookup : forall p q i cls a c, same p q -> lookup p i = Some (cls, a, c) ->
  exists c', lookup q i = Some (cls, a, c') /\ strip_hash c' = strip_hash c.
Proof.
  intros p q i cls a c [_ O C] L. unfold lookup in *. rewrite O in L.
  destruct (nth_error (pr_objs q) i) as [[cls' a']|]; [|discriminate].
  destruct (nth_error (pr_cells p) a') as [c0|] eqn:E; [|discriminate].
  injection L as -> -> ->. specialize (C a). rewrite E in C. simpl in C.
  destruct (nth_error (pr_cells q) a) as [c'|]; [|discriminate].
  simpl in C. exists c'. split; [reflexivity|]. congruence.
Qed.

Lemma same_lookup_none : forall p q i, same p q -> lookup p i = None -> lookup q i = None.
Proof.
  intros p q i S L. destruct (lookup q i) as [[[cls a] c]|] eqn:E; [|reflexivity].
  destruct (same_lookup _ _ _ _ _ _ (same_sym _ _ S) E) as (c' & E' & _). congruence.
Qed.

Lemma set_hash_same : forall p a h, same p (set_hash p a h).
Proof.
  intros p a h. unfold set_hash. destruct (nth_error (pr_cells p) a) as [c|] eqn:E.
  - split; simpl; auto. intros b. rewrite nth_update.
    destruct (Nat.eqb_spec a b) as [->|]; [|reflexivity]. rewrite E. reflexivity.
  - apply same_refl.
Qed.

Lemma set_hash_lookup : forall p a h i cls b c, lookup (set_hash p a h) i = Some (cls, b, c) ->
  (a = b /\ ce_hash c = h) \/ (a <> b /\ lookup p i = Some (cls, b, c)).
Proof.
  intros p a h i cls b c. unfold set_hash, lookup.
  destruct (nth_error (pr_cells p) a) as [c0|] eqn:E; simpl;
    destruct (nth_error (pr_objs p) i) as [[cls' b']|]; try discriminate.
  - rewrite nth_update. destruct (Nat.eqb_spec a b') as [->|N].
    + rewrite E. intros [= -> -> <-]. left; auto.
    + destruct (nth_error (pr_cells p) b') as [c1|]; [|discriminate].
      intros [= -> -> ->]. right; auto.
  - destruct (nth_error (pr_cells p) b') as [c1|] eqn:E1; [|discriminate].
    intros [= -> -> ->]. right. split; [congruence|reflexivity].
Qed.

Section Facts.
  Variable fn : Z -> string -> Z -> list Z -> Z.

  Definition wf (p : proc) : Prop :=
    (forall i cls a, nth_error (pr_objs p) i = Some (cls, a) ->
       exists c, nth_error (pr_cells p) a = Some c /\ Forall (fun k => k < i) (ce_kids c)) /\
    (forall i j cls cls' a, nth_error (pr_objs p) i = Some (cls, a) ->
       nth_error (pr_objs p) j = Some (cls', a) -> cls = cls').

  Definition fresh_hash (p : proc) : Prop :=
    forall i cls a c h, lookup p i = Some (cls, a, c) -> ce_hash c = Some h ->
      h = undecorated_hash fn p i.

  Definition Inv (p : proc) : Prop := wf p /\ fresh_hash p.

  Lemma plain_same : forall f p q i, same p q -> plain_hash fn f p i = plain_hash fn f q i.
  Proof.
    induction f as [|f IH]; intros p q i S; [reflexivity|]. simpl.
    destruct (lookup p i) as [[[cls a] c]|] eqn:E.
    - destruct (same_lookup _ _ _ _ _ _ S E) as (c' & E' & Q). rewrite E'.
      unfold strip_hash in Q. injection Q as D K. rewrite D, K, (same_seed _ _ S).
      f_equal. apply map_ext. intros k. apply IH, S.
    - rewrite (same_lookup_none _ _ _ S E). reflexivity.
  Qed.

  Lemma wf_kids : forall p i cls a c, wf p -> lookup p i = Some (cls, a, c) ->
    Forall (fun k => k < i) (ce_kids c).
  Proof.
    intros p i cls a c [W _] L. unfold lookup in L.
    destruct (nth_error (pr_objs p) i) as [[cls' a']|] eqn:E; [|discriminate].
    destruct (W _ _ _ E) as (c' & E' & K). rewrite E' in L. injection L as -> -> ->. exact K.
  Qed.

  Lemma lookup_lt : forall p i x, lookup p i = Some x -> i < length (pr_objs p).
  Proof.
    intros p i x L. unfold lookup in L. apply nth_error_Some.
    destruct (nth_error (pr_objs p) i); congruence.
  Qed.

  Lemma wf_lookup : forall p i, wf p -> i < length (pr_objs p) ->
    exists cls a c, lookup p i = Some (cls, a, c).
  Proof.
    intros p i [W _] L. unfold lookup.
    destruct (nth_error (pr_objs p) i) as [[cls a]|] eqn:E.
    - destruct (W _ _ _ E) as (c & E' & _). rewrite E'. eauto.
    - apply nth_error_None in E. lia.
  Qed.

  Lemma map_ext_Forall : forall A B (g h : A -> B) l, Forall (fun x => g x = h x) l ->
    map g l = map h l.
  Proof. induction 1; simpl; congruence. Qed.

  Lemma plain_fuel : forall p, wf p -> forall n f1 f2 i, i < n -> i < f1 -> i < f2 ->
    plain_hash fn f1 p i = plain_hash fn f2 p i.
  Proof.
    intros p W. induction n as [|n IH]; intros f1 f2 i N L1 L2; [lia|].
    destruct f1 as [|f1], f2 as [|f2]; try lia. simpl.
    destruct (lookup p i) as [[[cls a] c]|] eqn:E; [|reflexivity].
    pose proof (wf_kids _ _ _ _ _ W E) as K. f_equal. apply map_ext_Forall.
    eapply Forall_impl; [|exact K]. simpl. intros k Lk. apply IH; lia.
  Qed.

  Lemma plain_undec : forall p i f, wf p -> i < f ->
    plain_hash fn f p i = undecorated_hash fn p i.
  Proof. intros p i f W L. apply (plain_fuel p W (S i)); lia. Qed.

  Lemma undec_same : forall p q i, same p q -> undecorated_hash fn p i = undecorated_hash fn q i.
  Proof. intros. apply plain_same; auto. Qed.

  Lemma wf_same : forall p q, same p q -> wf p -> wf q.
  Proof.
    intros p q S [W1 W2]. destruct S as [_ O C]. split.
    - intros i cls a E. rewrite <- O in E. destruct (W1 _ _ _ E) as (c & E' & K).
      specialize (C a). rewrite E' in C. simpl in C.
      destruct (nth_error (pr_cells q) a) as [c'|]; [|discriminate].
      exists c'. split; [reflexivity|]. unfold strip_hash in C. simpl in C.
      injection C as D K'. rewrite <- K'. exact K.
    - intros i j cls cls' a. rewrite <- O. apply W2.
  Qed.

  Lemma set_none_inv : forall p a, Inv p -> Inv (set_hash p a None).
  Proof.
    intros p a [W F]. pose proof (set_hash_same p a None) as S. split.
    - exact (wf_same _ _ S W).
    - intros i cls b c h L H. destruct (set_hash_lookup _ _ _ _ _ _ _ L) as [[-> E]|[N L']].
      + congruence.
      + rewrite <- (undec_same _ _ i S). exact (F _ _ _ _ _ L' H).
  Qed.

  Lemma set_some_inv : forall p i cls a c, Inv p -> lookup p i = Some (cls, a, c) ->
    Inv (set_hash p a (Some (undecorated_hash fn p i))).
  Proof.
    intros p i cls a c [W F] L. set (h := undecorated_hash fn p i).
    pose proof (set_hash_same p a (Some h)) as S. split.
    - exact (wf_same _ _ S W).
    - intros j cls' b c' h' L' H.
      destruct (set_hash_lookup _ _ _ _ _ _ _ L') as [[-> E]|[N L2]].
      + assert (h' = h) by congruence. subst h'.
        rewrite <- (undec_same _ _ j S). subst h.
        destruct (same_lookup _ _ _ _ _ _ (same_sym _ _ S) L') as (c2 & Lj & _).
        assert (cls' = cls /\ c2 = c) as [-> ->].
        { unfold lookup in L, Lj.
          destruct (nth_error (pr_objs p) i) as [[ci ai]|] eqn:Ei; [|discriminate].
          destruct (nth_error (pr_objs p) j) as [[cj aj]|] eqn:Ej; [|discriminate].
          destruct (nth_error (pr_cells p) ai) eqn:Ci; [|discriminate].
          destruct (nth_error (pr_cells p) aj) eqn:Cj; [|discriminate].
          injection L as -> -> ->. injection Lj as -> -> ->.
          split; [|congruence]. exact (proj2 W j i _ _ _ Ej Ei). }
        unfold undecorated_hash. simpl. rewrite L, Lj. f_equal. apply map_ext_Forall.
        pose proof (wf_kids _ _ _ _ _ W L) as K1. pose proof (wf_kids _ _ _ _ _ W Lj) as K2.
        rewrite Forall_forall in *. intros k Hk. apply (plain_fuel p W (1 + i + j)).
        * specialize (K1 _ Hk). lia.
        * auto.
        * auto.
      + rewrite <- (undec_same _ _ j S). exact (F _ _ _ _ _ L2 H).
  Qed.

  Lemma thread_ok : forall (g : proc -> nat -> proc * Z) (v : nat -> Z) l p,
    (forall q k, In k l -> same p q -> Inv q ->
       same q (fst (g q k)) /\ Inv (fst (g q k)) /\ snd (g q k) = v k) ->
    Inv p ->
    same p (fst (thread g p l)) /\ Inv (fst (thread g p l)) /\ snd (thread g p l) = map v l.
  Proof.
    intros g v l p H0 I0.
    assert (forall l' q, incl l' l -> same p q -> Inv q ->
      same q (fst (thread g q l')) /\ Inv (fst (thread g q l')) /\ snd (thread g q l') = map v l').
    { induction l' as [|k l' IH]; intros q IC S I; simpl.
      - split; [apply same_refl|split; [exact I|reflexivity]].
      - destruct (H0 q k (IC k (or_introl eq_refl)) S I) as (S1 & I1 & V1).
        destruct (g q k) as [q1 y]. simpl in *.
        destruct (IH q1) as (S2 & I2 & V2).
        + intros z Hz; apply IC; right; exact Hz.
        + eapply same_trans; eauto.
        + exact I1.
        + destruct (thread g q1 l') as [q2 ys]. simpl in *.
          split; [eapply same_trans; eauto|split; [exact I2|congruence]]. }
    apply H; [apply incl_refl|apply same_refl|exact I0].
  Qed.

  Lemma hash_obj_ok : forall f p i, Inv p -> i < f ->
    same p (fst (hash_obj fn f p i)) /\ Inv (fst (hash_obj fn f p i)) /\
    snd (hash_obj fn f p i) = undecorated_hash fn p i.
  Proof.
    induction f as [|f IH]; intros p i I Lf; [lia|]. simpl.
    destruct (lookup p i) as [[[cls a] c]|] eqn:E.
    - destruct (ce_hash c) as [h|] eqn:Hc; simpl.
      + split; [apply same_refl|split; [exact I|]]. destruct I as [_ F].
        exact (F _ _ _ _ _ E Hc).
      + pose proof (wf_kids _ _ _ _ _ (proj1 I) E) as K.
        destruct (thread_ok (hash_obj fn f) (undecorated_hash fn p) (ce_kids c) p)
          as (S1 & I1 & V1); [|exact I|].
        * intros q k Hk Sq Iq. rewrite Forall_forall in K. specialize (K _ Hk).
          destruct (IH q k Iq) as (A & B & C); [lia|]. split; [exact A|split; [exact B|]].
          rewrite C. symmetry. apply undec_same, Sq.
        * destruct (thread (hash_obj fn f) p (ce_kids c)) as [p' hs]. simpl in *.
          destruct (same_lookup _ _ _ _ _ _ S1 E) as (c' & E' & Q).
          assert (V : fn (pr_seed p') cls (ce_data c) hs = undecorated_hash fn p' i).
          { unfold undecorated_hash. simpl. rewrite E'. unfold strip_hash in Q.
            injection Q as D K'. rewrite D, K', V1. f_equal. apply map_ext_Forall.
            rewrite Forall_forall in *. intros k Hk. specialize (K _ Hk).
            rewrite (undec_same _ _ k S1). symmetry. apply plain_undec; [|lia].
            exact (proj1 I1). }
          rewrite V. split; [eapply same_trans; [exact S1|apply set_hash_same]|].
          split; [exact (set_some_inv _ _ _ _ _ I1 E')|].
          symmetry. apply undec_same, S1.
    - simpl. split; [apply same_refl|split; [exact I|]].
      unfold undecorated_hash. simpl. rewrite E. reflexivity.
  Qed.

  Lemma getstate_inv : forall p i, Inv p -> Inv (getstate p i) /\ same p (getstate p i).
  Proof.
    intros p i I. unfold getstate. destruct (lookup p i) as [[[cls a] c]|].
    - split; [apply set_none_inv, I|apply set_hash_same].
    - split; [exact I|apply same_refl].
  Qed.

  (** adding one instance at the end *)
  Lemma nth_app_last : forall A (l : list A) x i y, nth_error (l ++ [x]) i = Some y ->
    nth_error l i = Some y \/ (i = length l /\ x = y).
  Proof.
    intros A l x i y H. destruct (Nat.lt_ge_cases i (length l)) as [L|L].
    - rewrite nth_error_app1 in H by exact L. auto.
    - rewrite nth_error_app2 in H by exact L. right.
      destruct (i - length l) as [|n] eqn:D; simpl in H.
      + split; [lia|congruence].
      + destruct n; discriminate.
  Qed.
  Lemma nth_app_left : forall A (l m : list A) i y, nth_error l i = Some y ->
    nth_error (l ++ m) i = Some y.
  Proof.
    intros A l m i y H. rewrite nth_error_app1; [exact H|].
    apply nth_error_Some. congruence.
  Qed.

  (** a process that extends another: the old instances keep class, dict and attributes *)
  Definition extends (p q : proc) : Prop :=
    pr_seed p = pr_seed q /\
    (forall i x, nth_error (pr_objs p) i = Some x -> nth_error (pr_objs q) i = Some x) /\
    (forall a c, nth_error (pr_cells p) a = Some c -> nth_error (pr_cells q) a = Some c).

  Lemma extends_lookup : forall p q i x, extends p q -> lookup p i = Some x ->
    lookup q i = Some x.
  Proof.
    intros p q i x (_ & O & C) L. unfold lookup in *.
    destruct (nth_error (pr_objs p) i) as [[cls a]|] eqn:E; [|discriminate].
    rewrite (O _ _ E). destruct (nth_error (pr_cells p) a) as [c|] eqn:E'; [|discriminate].
    rewrite (C _ _ E'). exact L.
  Qed.

  Lemma plain_extends : forall f p q i, wf p -> extends p q -> i < length (pr_objs p) ->
    plain_hash fn f p i = plain_hash fn f q i.
  Proof.
    induction f as [|f IH]; intros p q i W X L; [reflexivity|]. simpl.
    destruct (wf_lookup _ _ W L) as (cls & a & c & E).
    rewrite E, (extends_lookup _ _ _ _ X E), (proj1 X). f_equal. apply map_ext_Forall.
    pose proof (wf_kids _ _ _ _ _ W E) as K. rewrite Forall_forall in *. intros k Hk.
    specialize (K _ Hk). apply IH; auto. lia.
  Qed.

  Lemma new_inv : forall p cls data kids h, Inv p ->
    Forall (fun k => k < length (pr_objs p)) kids ->
    Inv (set_hash (mkProc (pr_seed p) (pr_cells p ++ [mkCell data kids h])
                          (pr_objs p ++ [(cls, length (pr_cells p))]))
                  (length (pr_cells p)) None).
  Proof.
    intros p cls data kids h [[W1 W2] F] K.
    set (p1 := mkProc (pr_seed p) (pr_cells p ++ [mkCell data kids h])
                      (pr_objs p ++ [(cls, length (pr_cells p))])).
    assert (B : forall i x b, nth_error (pr_objs p) i = Some (x, b) -> b < length (pr_cells p)).
    { intros i x b E. destruct (W1 _ _ _ E) as (c & E' & _). apply nth_error_Some. congruence. }
    assert (WF : wf p1).
    { split.
      - intros i x b E. simpl in E. destruct (nth_app_last _ _ _ _ _ E) as [E1|[-> E1]].
        + destruct (W1 _ _ _ E1) as (c & E' & Kc). exists c. simpl.
          split; [apply nth_app_left, E'|exact Kc].
        + injection E1 as <- <-. exists (mkCell data kids h). simpl. split; [|exact K].
          rewrite nth_error_app2, Nat.sub_diag by lia. reflexivity.
      - intros i j x y b Ei Ej. simpl in *.
        destruct (nth_app_last _ _ _ _ _ Ei) as [E1|[-> E1]],
                 (nth_app_last _ _ _ _ _ Ej) as [E2|[-> E2]].
        + exact (W2 _ _ _ _ _ E1 E2).
        + injection E2 as _ <-. apply B in E1. lia.
        + injection E1 as _ <-. apply B in E2. lia.
        + congruence. }
    pose proof (set_hash_same p1 (length (pr_cells p)) None) as S.
    split; [exact (wf_same _ _ S WF)|].
    intros i x b c v L H. destruct (set_hash_lookup _ _ _ _ _ _ _ L) as [[-> E]|[N L']].
    - congruence.
    - rewrite <- (undec_same _ _ i S).
      assert (Lp : lookup p i = Some (x, b, c)).
      { unfold lookup in L'. simpl in L'.
        destruct (nth_error (pr_objs p ++ [(cls, length (pr_cells p))]) i) as [[x' b']|] eqn:E;
          [|discriminate].
        destruct (nth_error (pr_cells p ++ [mkCell data kids h]) b') as [c'|] eqn:E';
          [|discriminate].
        injection L' as -> -> ->.
        destruct (nth_app_last _ _ _ _ _ E) as [E1|[-> E1]]; [|congruence].
        unfold lookup. rewrite E1. destruct (nth_app_last _ _ _ _ _ E') as [E2|[-> _]].
        - rewrite E2. reflexivity.
        - congruence. }
      rewrite (F _ _ _ _ _ Lp H). unfold undecorated_hash. apply plain_extends.
      + split; [exact W1|exact W2].
      + split; [reflexivity|]. split; intros; simpl; apply nth_app_left; assumption.
      + exact (lookup_lt _ _ _ Lp).
  Qed.

  Lemma set_absent : forall p a, (forall c, nth_error (pr_cells p) a = Some c -> ce_hash c = None) ->
    set_hash p a None = p.
  Proof.
    intros [s cs os] a H. unfold set_hash. simpl in *.
    destruct (nth_error cs a) as [c|] eqn:E; [|reflexivity]. f_equal.
    specialize (H _ eq_refl). revert a E. induction cs as [|x cs IH]; intros [|a] E; simpl in *;
      try discriminate.
    - injection E as ->. destruct c as [d k h]. simpl in *. subst h. reflexivity.
    - f_equal. apply IH, E.
  Qed.

  Lemma do_new_inv : forall p cls data kids, Inv p -> Inv (do_new p cls data kids).
  Proof.
    intros p cls data kids I. unfold do_new.
    destruct (forallb (fun k => Nat.ltb k (length (pr_objs p))) kids) eqn:B; [|exact I].
    assert (K : Forall (fun k => k < length (pr_objs p)) kids).
    { apply Forall_forall. intros k Hk. rewrite forallb_forall in B. apply Nat.ltb_lt, B, Hk. }
    pose proof (new_inv p cls data kids None I K) as H. rewrite set_absent in H; [exact H|].
    simpl. intros c E. rewrite nth_error_app2, Nat.sub_diag in E by lia. simpl in E.
    injection E as <-. reflexivity.
  Qed.

  Lemma do_copy_inv : forall p i, Inv p -> Inv (do_copy p i).
  Proof.
    intros p i I. unfold do_copy. destruct (lookup p i) as [[[cls a] c]|] eqn:E; [|exact I].
    destruct (getstate_inv p i I) as [Ig Sg]. unfold setstate. apply set_none_inv.
    set (g := getstate p i) in *.
    destruct (same_lookup _ _ _ _ _ _ Sg E) as (c' & E' & _).
    assert (Hobj : nth_error (pr_objs g) i = Some (cls, a) /\ nth_error (pr_cells g) a = Some c').
    { unfold lookup in E'. destruct (nth_error (pr_objs g) i) as [[x b]|]; [|discriminate].
      destruct (nth_error (pr_cells g) b) eqn:C; [|discriminate]. injection E' as -> -> ->.
      auto. }
    destruct Hobj as [Ho Hc].
    destruct Ig as [[W1 W2] F].
    assert (X : extends g (mkProc (pr_seed g) (pr_cells g) (pr_objs g ++ [(cls, a)]))).
    { split; [reflexivity|]. split; simpl; [intros; apply nth_app_left; assumption|auto]. }
    assert (WF : wf (mkProc (pr_seed g) (pr_cells g) (pr_objs g ++ [(cls, a)]))).
    { split.
      - intros j x b Ej. simpl in *. destruct (nth_app_last _ _ _ _ _ Ej) as [E1|[-> E1]].
        + exact (W1 _ _ _ E1).
        + injection E1 as <- <-. destruct (W1 _ _ _ Ho) as (c2 & C2 & K).
          exists c2. split; [exact C2|]. eapply Forall_impl; [|exact K]. simpl. intros k Lk.
          assert (i < length (pr_objs g)) by (apply nth_error_Some; congruence). lia.
      - intros j k x y b Ej Ek. simpl in *.
        destruct (nth_app_last _ _ _ _ _ Ej) as [E1|[-> E1]],
                 (nth_app_last _ _ _ _ _ Ek) as [E2|[-> E2]].
        + exact (W2 _ _ _ _ _ E1 E2).
        + injection E2 as <- <-. exact (W2 _ _ _ _ _ E1 Ho).
        + injection E1 as <- <-. exact (W2 _ _ _ _ _ Ho E2).
        + congruence. }
    split; [exact WF|].
    intros j x b c2 h L H.
    (* the copied dict has no "__hash" entry: __getstate__ has removed it *)
    assert (Hn : ce_hash c' = None).
    { subst g. unfold getstate in E'. rewrite E in E'.
      destruct (set_hash_lookup _ _ _ _ _ _ _ E') as [[_ Q]|[N _]]; [exact Q|congruence]. }
    unfold lookup in L. simpl in L.
    destruct (nth_error (pr_objs g ++ [(cls, a)]) j) as [[x' b']|] eqn:Ej; [|discriminate].
    destruct (nth_error (pr_cells g) b') as [c3|] eqn:C3; [|discriminate].
    injection L as -> -> ->.
    destruct (nth_app_last _ _ _ _ _ Ej) as [E1|[-> E1]].
    - assert (Lg : lookup g j = Some (x, b, c2)) by (unfold lookup; rewrite E1, C3; reflexivity).
      rewrite (F _ _ _ _ _ Lg H). unfold undecorated_hash.
      apply plain_extends; [split; [exact W1|exact W2]|exact X|exact (lookup_lt _ _ _ Lg)].
    - injection E1 as <- <-. congruence.
  Qed.

  Lemma dump_inv : forall f p i, Inv p ->
    Inv (fst (dump_obj f p i)) /\ same p (fst (dump_obj f p i)).
  Proof.
    induction f as [|f IH]; intros p i I; simpl; [split; [exact I|apply same_refl]|].
    destruct (getstate_inv p i I) as [Ig Sg].
    destruct (lookup (getstate p i) i) as [[[cls a] c]|]; simpl; [|split; assumption].
    assert (T : forall l q, Inv q -> Inv (fst (thread (dump_obj f) q l)) /\
                                     same q (fst (thread (dump_obj f) q l))).
    { induction l as [|k l IHl]; intros q Iq; simpl; [split; [exact Iq|apply same_refl]|].
      destruct (IH q k Iq) as [I1 S1]. destruct (dump_obj f q k) as [q1 y]. simpl in *.
      destruct (IHl q1 I1) as [I2 S2]. destruct (thread (dump_obj f) q1 l) as [q2 ys].
      simpl in *. split; [exact I2|eapply same_trans; eauto]. }
    destruct (T (ce_kids c) _ Ig) as [I2 S2].
    destruct (thread (dump_obj f) (getstate p i) (ce_kids c)) as [p2 ks]. simpl in *.
    split; [exact I2|eapply same_trans; eauto].
  Qed.

  Fixpoint load_list (p : proc) (l : list pickled) : proc * list nat :=
    match l with
    | [] => (p, [])
    | x :: xs => let '(p1, k) := do_load p x in
                 let '(p2, ks) := load_list p1 xs in (p2, k :: ks)
    end.

  Lemma do_load_eq : forall p cls data h kids, do_load p (Pickled cls data h kids)
    = let '(p1, ks) := load_list p kids in
      (setstate (mkProc (pr_seed p1) (pr_cells p1 ++ [mkCell data ks h]) (pr_objs p1)) cls
                (length (pr_cells p1)), length (pr_objs p1)).
  Proof. reflexivity. Qed.

  Section PickledInd.
    Variable P : pickled -> Prop.
    Hypothesis H : forall cls data h kids, Forall P kids -> P (Pickled cls data h kids).
    Fixpoint pickled_ind' (t : pickled) : P t :=
      match t with
      | Pickled cls data h kids =>
          H cls data h kids ((fix go l : Forall P l :=
            match l with
            | [] => Forall_nil P
            | x :: xs => Forall_cons x (pickled_ind' x) (go xs)
            end) kids)
      end.
  End PickledInd.

  Lemma set_hash_objs : forall p a h, pr_objs (set_hash p a h) = pr_objs p.
  Proof. intros. symmetry. apply (same_objs _ _ (set_hash_same p a h)). Qed.

  Lemma load_inv : forall t p, Inv p ->
    Inv (fst (do_load p t)) /\ snd (do_load p t) < length (pr_objs (fst (do_load p t))) /\
    length (pr_objs p) <= length (pr_objs (fst (do_load p t))).
  Proof.
    induction t as [cls data h kids IH] using pickled_ind'. intros p I.
    assert (T : forall q, Inv q -> Inv (fst (load_list q kids)) /\
      Forall (fun k => k < length (pr_objs (fst (load_list q kids)))) (snd (load_list q kids)) /\
      length (pr_objs q) <= length (pr_objs (fst (load_list q kids)))).
    { clear p I. induction IH as [|t l Ht _ IHl]; intros q Iq.
      - simpl. split; [exact Iq|split; [constructor|lia]].
      - simpl. destruct (Ht q Iq) as (I1 & L1 & G1). destruct (do_load q t) as [q1 k].
        simpl in I1, L1, G1.
        destruct (IHl q1 I1) as (I2 & L2 & G2). destruct (load_list q1 l) as [q2 ks].
        simpl in *. split; [exact I2|split; [|lia]]. constructor; [lia|exact L2]. }
    rewrite do_load_eq. destruct (T p I) as (I1 & K1 & G1).
    destruct (load_list p kids) as [p1 ks]. simpl in I1, K1, G1. simpl.
    unfold setstate. simpl. rewrite set_hash_objs. simpl. rewrite app_length. simpl.
    split; [|lia]. exact (new_inv p1 cls data ks h I1 K1).
  Qed.

  Lemma empty_inv : forall s, Inv (mkProc s [] []).
  Proof.
    intros s. split; [split|].
    - intros [|i] cls a E; discriminate.
    - intros [|i] j cls cls' a E; discriminate.
    - intros [|i] cls a c h E; discriminate.
  Qed.

  Lemma step_inv : forall w o, Inv (wo_proc w) -> Inv (wo_proc (step fn w o)).
  Proof.
    intros [p fs] [cls data kids|i|i|i|i|k|s] I; simpl in *.
    - apply do_new_inv, I.
    - destruct (hash_obj_ok (S i) p i I (Nat.lt_succ_diag_r i)) as (_ & H & _). exact H.
    - apply getstate_inv, I.
    - apply do_copy_inv, I.
    - unfold do_dump. pose proof (dump_inv (S i) p i I) as [H _].
      destruct (dump_obj (S i) p i) as [p' t]. exact H.
    - destruct (nth_error fs k) as [t|]; [|exact I]. apply load_inv, I.
    - apply empty_inv.
  Qed.

  Lemma run_inv : forall h w, Inv (wo_proc w) -> Inv (wo_proc (run fn w h)).
  Proof. induction h as [|o h IH]; intros w I; simpl; [exact I|]. apply IH, step_inv, I. Qed.

  Lemma hash_never_stale : forall seed h i,
    snd (do_hash fn (wo_proc (run fn (init_world seed) h)) i)
    = undecorated_hash fn (wo_proc (run fn (init_world seed) h)) i.
  Proof.
    intros seed h i. apply hash_obj_ok; [|lia]. apply run_inv, empty_inv.
  Qed.
End Facts.
