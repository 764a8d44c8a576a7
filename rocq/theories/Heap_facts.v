(** Facts about the store of containers. *)
From Coq Require Import String List Bool Arith Lia.
From Verif Require Import Py Names Reqs Logic Validation Core Parser Heap Spec_Heap Py_facts CoreEq_facts.
Import ListNotations.
Open Scope list_scope.

Lemma put_same {A} (l : list A) n x : n < length l -> nth_error (put l n x) n = Some x.
Proof. revert n. induction l as [|y l IH]; intros n H; destruct n as [|n]; cbn in *; try lia; auto. apply IH. lia. Qed.
Lemma put_other {A} (l : list A) n m x : n <> m -> nth_error (put l n x) m = nth_error l m.
Proof. revert n m. induction l as [|y l IH]; intros n m H; destruct n as [|n], m as [|m]; cbn; auto; try congruence; apply IH; congruence. Qed.
Lemma nth_app {A} (l m : list A) n x : nth_error l n = Some x -> nth_error (l ++ m) n = Some x.
Proof. intros H. rewrite nth_error_app1; auto. apply nth_error_Some. congruence. Qed.

(** containers that nobody writes to stay *)
Definition kept (h h' : heap) (a : nat) : Prop := forall c, nth_error h a = Some c -> nth_error h' a = Some c.
Definition frozen_at (h : heap) (a : nat) : Prop := exists v, nth_error h a = Some (mkCell true v).

Lemma add_domain_cells st d fs : exists m, cells (add_domain st d fs) = cells st ++ m.
Proof. eexists. reflexivity. Qed.
Lemma do_op_cells st o : (exists m, cells (do_op st o) = cells st ++ m) \/
  exists a v c, o = OWrite a v /\ nth_error (cells st) a = Some c /\ c_frozen c = false /\ cells (do_op st o) = put (cells st) a (mkCell false v).
Proof.
  assert (Z : exists m, cells st = cells st ++ m) by (exists []; now rewrite app_nil_r).
  destruct o as [c|a v|n rs ty cs ps dps fs acts|s|n d dn rs objs init g m|i j|a]; cbn [do_op].
  - left. exists [c]. reflexivity.
  - destruct (nth_error (cells st) a) as [c|] eqn:E; [|now left]. destruct (c_frozen c) eqn:F; [now left|].
    right. exists a, v, c. auto.
  - left. unfold do_domain. destruct (arg (reqs_at (cells st)) rs), (optional (types_at (cells st)) ty), (arg (consts_at (cells st)) cs), (arg (atoms_at (cells st)) ps), (arg (derived_at (cells st)) dps), (arg (funs_at (cells st)) fs), (arg (acts_at (cells st)) acts); auto.
    destruct (mk_domain _ _ _ _ _ _ _ _); auto. apply add_domain_cells.
  - left. destruct (parse_domain_fresh s); auto. apply add_domain_cells.
  - left. unfold do_problem. destruct (optional (view_domain st) d), (optional (reqs_at (cells st)) rs), (arg (consts_at (cells st)) objs), (arg (forms_at (cells st)) init); auto.
    destruct (mk_problem _ _ _ _ _ _ _ _); auto. cbn [cells]. eexists. reflexivity.
  - left. destruct (nth_error (probs st) i), (nth_error (doms st) j); auto.
  - left. destruct (steps_at (cells st) a); auto.
Qed.
Lemma do_op_kept st o a : (forall v, o <> OWrite a v) -> kept (cells st) (cells (do_op st o)) a.
Proof.
  intros N c H. destruct (do_op_cells st o) as [(m & E)|(b & v & c' & -> & _ & _ & E)]; rewrite E.
  - now apply nth_app.
  - rewrite put_other; auto. intros ->. now apply (N v).
Qed.
Lemma do_op_frozen st o a c : nth_error (cells st) a = Some c -> c_frozen c = true -> nth_error (cells (do_op st o)) a = Some c.
Proof.
  intros H F. destruct (do_op_cells st o) as [(m & E)|(b & v & c' & -> & G & K & E)]; rewrite E.
  - now apply nth_app.
  - rewrite put_other; auto. intros ->. congruence.
Qed.
Lemma program_kept ops : forall st a, ~ writes ops a -> kept (cells st) (cells (program ops st)) a.
Proof.
  unfold program. induction ops as [|o ops IH]; intros st a N c H; cbn [fold_left]; auto. apply IH.
  - intros (v & V). apply N. exists v. now right.
  - apply do_op_kept; auto. intros v ->. apply N. exists v. now left.
Qed.
Lemma program_frozen ops : forall st a c, nth_error (cells st) a = Some c -> c_frozen c = true -> nth_error (cells (program ops st)) a = Some c.
Proof.
  unfold program. induction ops as [|o ops IH]; intros st a c H F; cbn [fold_left]; auto. apply IH; auto. now apply do_op_frozen.
Qed.

(** objects stay, too; the attribute [domain] of a problem can be set *)
Lemma add_domain_doms st d fs : exists m, doms (add_domain st d fs) = doms st ++ m.
Proof. eexists. reflexivity. Qed.
Lemma do_op_doms st o : exists m, doms (do_op st o) = doms st ++ m.
Proof.
  assert (Z : exists m, doms st = doms st ++ m) by (exists []; now rewrite app_nil_r).
  destruct o as [c|a v|n rs ty cs ps dps fs acts|s|n d dn rs objs init g m|i j|a]; cbn [do_op]; auto.
  - destruct (nth_error (cells st) a) as [c|]; auto. destruct (c_frozen c); auto.
  - unfold do_domain. destruct (arg (reqs_at (cells st)) rs), (optional (types_at (cells st)) ty), (arg (consts_at (cells st)) cs), (arg (atoms_at (cells st)) ps), (arg (derived_at (cells st)) dps), (arg (funs_at (cells st)) fs), (arg (acts_at (cells st)) acts); auto.
    destruct (mk_domain _ _ _ _ _ _ _ _); auto. apply add_domain_doms.
  - destruct (parse_domain_fresh s); auto. apply add_domain_doms.
  - unfold do_problem. destruct (optional (view_domain st) d), (optional (reqs_at (cells st)) rs), (arg (consts_at (cells st)) objs), (arg (forms_at (cells st)) init); auto.
    destruct (mk_problem _ _ _ _ _ _ _ _); auto.
  - destruct (nth_error (probs st) i), (nth_error (doms st) j); auto.
  - destruct (steps_at (cells st) a); auto.
Qed.
Lemma do_op_plans st o : exists m, plans (do_op st o) = plans st ++ m.
Proof.
  assert (Z : exists m, plans st = plans st ++ m) by (exists []; now rewrite app_nil_r).
  destruct o as [c|a v|n rs ty cs ps dps fs acts|s|n d dn rs objs init g m|i j|a]; cbn [do_op]; auto.
  - destruct (nth_error (cells st) a) as [c|]; auto. destruct (c_frozen c); auto.
  - unfold do_domain. destruct (arg (reqs_at (cells st)) rs), (optional (types_at (cells st)) ty), (arg (consts_at (cells st)) cs), (arg (atoms_at (cells st)) ps), (arg (derived_at (cells st)) dps), (arg (funs_at (cells st)) fs), (arg (acts_at (cells st)) acts); auto.
    destruct (mk_domain _ _ _ _ _ _ _ _); auto.
  - destruct (parse_domain_fresh s); auto.
  - unfold do_problem. destruct (optional (view_domain st) d), (optional (reqs_at (cells st)) rs), (arg (consts_at (cells st)) objs), (arg (forms_at (cells st)) init); auto.
    destruct (mk_problem _ _ _ _ _ _ _ _); auto.
  - destruct (nth_error (probs st) i), (nth_error (doms st) j); auto.
  - destruct (steps_at (cells st) a); auto. cbn [plans]. now exists [a].
Qed.
Lemma do_op_probs st o i q : (forall j, o <> OSetDomain i j) -> nth_error (probs st) i = Some q -> nth_error (probs (do_op st o)) i = Some q.
Proof.
  intros N H. destruct o as [c|a v|n rs ty cs ps dps fs acts|s|n d dn rs objs init g m|k j|a]; cbn [do_op]; auto.
  - destruct (nth_error (cells st) a) as [c|]; auto. destruct (c_frozen c); auto.
  - unfold do_domain. destruct (arg (reqs_at (cells st)) rs), (optional (types_at (cells st)) ty), (arg (consts_at (cells st)) cs), (arg (atoms_at (cells st)) ps), (arg (derived_at (cells st)) dps), (arg (funs_at (cells st)) fs), (arg (acts_at (cells st)) acts); auto.
    destruct (mk_domain _ _ _ _ _ _ _ _); auto.
  - destruct (parse_domain_fresh s); auto.
  - unfold do_problem. destruct (optional (view_domain st) d), (optional (reqs_at (cells st)) rs), (arg (consts_at (cells st)) objs), (arg (forms_at (cells st)) init); auto.
    destruct (mk_problem _ _ _ _ _ _ _ _); auto. now apply nth_app.
  - destruct (nth_error (probs st) k) eqn:E, (nth_error (doms st) j); auto. cbn [probs]. rewrite put_other; auto.
    intros ->. now apply (N j).
  - destruct (steps_at (cells st) a); auto.
Qed.
Lemma program_doms ops : forall st i o, nth_error (doms st) i = Some o -> nth_error (doms (program ops st)) i = Some o.
Proof.
  unfold program. induction ops as [|x ops IH]; intros st i o H; cbn [fold_left]; auto. apply IH.
  destruct (do_op_doms st x) as (m & ->). now apply nth_app.
Qed.
Lemma program_plans ops : forall st i o, nth_error (plans st) i = Some o -> nth_error (plans (program ops st)) i = Some o.
Proof.
  unfold program. induction ops as [|x ops IH]; intros st i o H; cbn [fold_left]; auto. apply IH.
  destruct (do_op_plans st x) as (m & ->). now apply nth_app.
Qed.
Lemma program_probs ops i : (forall j, ~ In (OSetDomain i j) ops) -> forall st q, nth_error (probs st) i = Some q -> nth_error (probs (program ops st)) i = Some q.
Proof.
  unfold program. induction ops as [|x ops IH]; intros N st q H; cbn [fold_left]; auto. apply IH.
  - intros j J. apply (N j). now right.
  - apply do_op_probs; auto. intros j ->. apply (N j). now left.
Qed.

(** * What is frozen *)
Definition dobj_ok (h : heap) (o : dobj) : Prop :=
  frozen_at h (o_reqs o) /\ frozen_at h (o_consts o) /\ frozen_at h (o_preds o) /\ frozen_at h (o_derived o) /\ frozen_at h (o_acts o).
Definition pobj_ok (h : heap) (q : pobj) : Prop := frozen_at h (q_objs q) /\ frozen_at h (q_init q).
Definition store_ok (st : store) : Prop := Forall (dobj_ok (cells st)) (doms st) /\ Forall (pobj_ok (cells st)) (probs st).
Lemma frozen_step st o a : frozen_at (cells st) a -> frozen_at (cells (do_op st o)) a.
Proof. intros (v & H). exists v. now apply do_op_frozen. Qed.
Lemma frozen_new (h m : heap) k v : nth_error m k = Some (mkCell true v) -> frozen_at (h ++ m) (length h + k).
Proof. intros H. exists v. rewrite nth_error_app2 by lia. now replace (length h + k - length h) with k by lia. Qed.
Lemma Forall_put {A} (P : A -> Prop) l n x : Forall P l -> P x -> Forall P (put l n x).
Proof. intros F. revert n. induction F; intros n X; destruct n as [|n]; cbn; constructor; auto. Qed.
Lemma add_domain_ok st d fs : store_ok st -> store_ok (add_domain st d fs).
Proof.
  intros [D P].
  assert (K : forall a, frozen_at (cells st) a -> frozen_at (cells (add_domain st d fs)) a).
  { intros a (v & H). exists v. destruct (add_domain_cells st d fs) as (m & ->). now apply nth_app. }
  split.
  - cbn [doms add_domain]. apply Forall_app. split.
    + eapply Forall_impl; [|exact D]. intros o (A & B & C & E & F). repeat split; apply K; assumption.
    + constructor; [|constructor]. cbn [cells]. repeat split; cbn [o_reqs o_consts o_preds o_derived o_acts].
      * rewrite <- (Nat.add_0_r (length (cells st))). eapply frozen_new. reflexivity.
      * eapply frozen_new. reflexivity.
      * eapply frozen_new. reflexivity.
      * eapply frozen_new. reflexivity.
      * eapply frozen_new. reflexivity.
  - cbn [probs]. eapply Forall_impl; [|exact P]. intros q (A & B). split; apply K; assumption.
Qed.
Lemma do_op_ok st o : store_ok st -> store_ok (do_op st o).
Proof.
  intros OK. pose proof OK as [D P].
  assert (D' : Forall (dobj_ok (cells (do_op st o))) (doms st)).
  { eapply Forall_impl; [|exact D]. intros x (A & B & C & E & F). repeat split; apply frozen_step; assumption. }
  assert (P' : Forall (pobj_ok (cells (do_op st o))) (probs st)).
  { eapply Forall_impl; [|exact P]. intros x (A & B). split; apply frozen_step; assumption. }
  destruct o as [c|a v|n rs ty cs ps dps fs acts|s|n d dn rs objs init g m|k j|a]; cbn [do_op] in *.
  - split; auto.
  - destruct (nth_error (cells st) a) as [c|]; auto. destruct (c_frozen c); auto. split; auto.
  - unfold do_domain. destruct (arg (reqs_at (cells st)) rs), (optional (types_at (cells st)) ty), (arg (consts_at (cells st)) cs), (arg (atoms_at (cells st)) ps), (arg (derived_at (cells st)) dps), (arg (funs_at (cells st)) fs), (arg (acts_at (cells st)) acts); auto.
    destruct (mk_domain _ _ _ _ _ _ _ _); auto. now apply add_domain_ok.
  - destruct (parse_domain_fresh s); auto. now apply add_domain_ok.
  - unfold do_problem in *. destruct (optional (view_domain st) d), (optional (reqs_at (cells st)) rs), (arg (consts_at (cells st)) objs), (arg (forms_at (cells st)) init); auto.
    destruct (mk_problem _ _ _ _ _ _ _ _); auto. split; auto. cbn [probs]. apply Forall_app. split; auto.
    constructor; [|constructor]. split; cbn [q_objs q_init cells].
    + rewrite <- (Nat.add_0_r (length (cells st))). eapply frozen_new. reflexivity.
    + eapply frozen_new. reflexivity.
  - destruct (nth_error (probs st) k) as [q|] eqn:E, (nth_error (doms st) j); auto. split; auto. cbn [probs cells] in *.
    apply Forall_put; auto. rewrite Forall_forall in P'. exact (P' q (nth_error_In _ _ E)).
  - destruct (steps_at (cells st) a); auto.
Qed.
Lemma program_ok ops : forall st, store_ok st -> store_ok (program ops st).
Proof. unfold program. induction ops as [|o ops IH]; intros st H; cbn [fold_left]; auto. apply IH. now apply do_op_ok. Qed.
Lemma empty_ok : store_ok empty_store.
Proof. split; constructor. Qed.

(** * Views *)
Lemma val_kept h h' a v : kept h h' a -> val_at h a = Some v -> val_at h' a = Some v.
Proof. unfold val_at. intros K H. destruct (nth_error h a) as [c|] eqn:E; [|discriminate]. now rewrite (K c E). Qed.
Lemma frozen_kept ops st a : frozen_at (cells st) a -> kept (cells st) (cells (program ops st)) a.
Proof. intros (v & H) c E. apply program_frozen; auto. rewrite H in E. now injection E as <-. Qed.
Ltac at_kept := intros K H; unfold reqs_at, types_at, consts_at, atoms_at, derived_at, funs_at, acts_at, forms_at, steps_at in *;
  match type of H with match val_at ?h ?a with _ => _ end = _ => destruct (val_at h a) eqn:E; [|discriminate]; now rewrite (val_kept _ _ _ _ K E) end.
Lemma reqs_kept h h' a l : kept h h' a -> reqs_at h a = Some l -> reqs_at h' a = Some l. Proof. at_kept. Qed.
Lemma types_kept h h' a l : kept h h' a -> types_at h a = Some l -> types_at h' a = Some l. Proof. at_kept. Qed.
Lemma consts_kept h h' a l : kept h h' a -> consts_at h a = Some l -> consts_at h' a = Some l. Proof. at_kept. Qed.
Lemma atoms_kept h h' a l : kept h h' a -> atoms_at h a = Some l -> atoms_at h' a = Some l. Proof. at_kept. Qed.
Lemma derived_kept h h' a l : kept h h' a -> derived_at h a = Some l -> derived_at h' a = Some l. Proof. at_kept. Qed.
Lemma funs_kept h h' a l : kept h h' a -> funs_at h a = Some l -> funs_at h' a = Some l. Proof. at_kept. Qed.
Lemma acts_kept h h' a l : kept h h' a -> acts_at h a = Some l -> acts_at h' a = Some l. Proof. at_kept. Qed.
Lemma forms_kept h h' a l : kept h h' a -> forms_at h a = Some l -> forms_at h' a = Some l. Proof. at_kept. Qed.
Lemma steps_kept h h' a l : kept h h' a -> steps_at h a = Some l -> steps_at h' a = Some l. Proof. at_kept. Qed.

Lemma view_dobj_kept h h' o d : kept h h' (o_reqs o) -> kept h h' (o_types o) -> kept h h' (o_consts o) -> kept h h' (o_preds o) ->
  kept h h' (o_derived o) -> kept h h' (o_funs o) -> kept h h' (o_acts o) -> view_dobj h o = Some d -> view_dobj h' o = Some d.
Proof.
  unfold view_dobj. intros K1 K2 K3 K4 K5 K6 K7 H.
  destruct (reqs_at h _) eqn:E1; [|discriminate]. destruct (types_at h _) eqn:E2; [|discriminate].
  destruct (consts_at h _) eqn:E3; [|discriminate]. destruct (atoms_at h _) eqn:E4; [|discriminate].
  destruct (derived_at h _) eqn:E5; [|discriminate]. destruct (funs_at h _) eqn:E6; [|discriminate].
  destruct (acts_at h _) eqn:E7; [|discriminate].
  rewrite (reqs_kept _ _ _ _ K1 E1), (types_kept _ _ _ _ K2 E2), (consts_kept _ _ _ _ K3 E3), (atoms_kept _ _ _ _ K4 E4),
    (derived_kept _ _ _ _ K5 E5), (funs_kept _ _ _ _ K6 E6), (acts_kept _ _ _ _ K7 E7). exact H.
Qed.
Lemma domain_stays st ops i o d : store_ok st -> nth_error (doms st) i = Some o -> view_domain st i = Some d ->
  ~ writes ops (o_types o) -> ~ writes ops (o_funs o) -> view_domain (program ops st) i = Some d.
Proof.
  intros [D _] E H N1 N2. unfold view_domain in *. rewrite (program_doms _ _ _ _ E). rewrite E in H.
  rewrite Forall_forall in D. destruct (D o (nth_error_In _ _ E)) as (A & B & C & F & G).
  eapply view_dobj_kept; [..|exact H]; auto using frozen_kept, program_kept.
Qed.
Lemma problem_stays st ops i q p : store_ok st -> nth_error (probs st) i = Some q -> view_problem st i = Some p ->
  (forall j, ~ In (OSetDomain i j) ops) -> (forall a, q_reqs q = Some a -> kept (cells st) (cells (program ops st)) a) ->
  (forall j o, q_dom q = Some j -> nth_error (doms st) j = Some o -> ~ writes ops (o_types o) /\ ~ writes ops (o_funs o)) ->
  view_problem (program ops st) i = Some p.
Proof.
  intros OK E H N1 N2 N3. unfold view_problem in *. rewrite (program_probs _ _ N1 _ _ E). rewrite E in H.
  pose proof OK as [_ P]. rewrite Forall_forall in P. destruct (P q (nth_error_In _ _ E)) as [A B].
  unfold view_pobj in *.
  destruct (optional (view_domain st) _) as [d|] eqn:E1; [|discriminate]. destruct (optional (reqs_at (cells st)) _) as [rs|] eqn:E2; [|discriminate].
  destruct (consts_at _ _) eqn:E3; [|discriminate]. destruct (forms_at _ _) eqn:E4; [|discriminate].
  rewrite (consts_kept _ (cells (program ops st)) _ _ (frozen_kept ops st _ A) E3), (forms_kept _ (cells (program ops st)) _ _ (frozen_kept ops st _ B) E4).
  assert (E1' : optional (view_domain (program ops st)) (q_dom q) = Some d).
  { destruct (q_dom q) as [j|]; cbn [optional] in *; auto. destruct (view_domain st j) as [d'|] eqn:V; [|discriminate].
    pose proof V as V'. unfold view_domain in V'. destruct (nth_error (doms st) j) as [o|] eqn:O; [|discriminate].
    destruct (N3 j o eq_refl O) as [W1 W2]. now rewrite (domain_stays st ops j o d' OK O V W1 W2). }
  assert (E2' : optional (reqs_at (cells (program ops st))) (q_reqs q) = Some rs).
  { destruct (q_reqs q) as [a|]; cbn [optional] in *; auto. destruct (reqs_at (cells st) a) as [lr|] eqn:R; [|discriminate].
    now rewrite (reqs_kept _ _ _ _ (N2 a eq_refl) R). }
  now rewrite E1', E2'.
Qed.
Lemma plan_stays st ops i a l pl : nth_error (plans st) i = Some a -> steps_at (cells st) a = Some l -> view_plan st i = Some pl ->
  ~ writes ops a -> (forall n b, In (n, b) l -> ~ writes ops b) -> view_plan (program ops st) i = Some pl.
Proof.
  intros E S H N1 N2. unfold view_plan in *. rewrite (program_plans _ _ _ _ E). rewrite E, S in H.
  rewrite (steps_kept _ _ _ _ (program_kept ops st a N1) S). clear S. unfold view_steps in *. revert pl H.
  induction l as [|[n b] l IH]; intros pl H; cbn [mapO fst snd] in *; auto.
  destruct (consts_at (cells st) b) as [cs|] eqn:C; [|discriminate]. cbn [option_map] in *.
  rewrite (consts_kept _ _ _ _ (program_kept ops st b (N2 n b (or_introl eq_refl))) C). cbn [option_map].
  destruct (mapO _ l) as [pl'|] eqn:M; [|discriminate]. rewrite (IH (fun n b I => N2 n b (or_intror I)) pl' eq_refl). exact H.
Qed.

(** a new domain is what the constructor makes of the present contents of its arguments *)
Lemma add_domain_view st d fs : (forall a, fs = Some a -> funs_at (cells st) a = Some (d_functions d)) ->
  view_domain (add_domain st d fs) (length (doms st)) = Some d.
Proof.
  intros F. unfold view_domain, add_domain. cbn [doms cells]. rewrite nth_error_app2, Nat.sub_diag by lia. cbn [nth_error].
  unfold view_dobj. cbn [o_name o_reqs o_types o_consts o_preds o_derived o_funs o_acts].
  set (new := [_; _; _; _; _; _; _]).
  assert (V : forall k, nth_error (cells st ++ new) (length (cells st) + k) = nth_error new k).
  { intros k. rewrite nth_error_app2 by lia. f_equal. lia. }
  assert (V0 : nth_error (cells st ++ new) (length (cells st)) = nth_error new 0).
  { rewrite <- V. f_equal. lia. }
  unfold reqs_at, types_at, consts_at, atoms_at, derived_at, acts_at, val_at. rewrite !V, V0. cbn [nth_error new option_map c_val].
  replace (funs_at (cells st ++ new) match fs with Some a => a | None => length (cells st) + 6 end) with (Some (d_functions d)).
  - now destruct d.
  - symmetry. destruct fs as [a|].
    + apply (funs_kept (cells st)); auto. intros c C. now apply nth_app.
    + unfold funs_at, val_at. rewrite V. reflexivity.
Qed.
Lemma do_domain_new st n rs ty cs ps dps fs acts rs' ty' cs' ps' dps' fs' acts' d :
  arg (reqs_at (cells st)) rs = Some rs' -> optional (types_at (cells st)) ty = Some ty' -> arg (consts_at (cells st)) cs = Some cs' ->
  arg (atoms_at (cells st)) ps = Some ps' -> arg (derived_at (cells st)) dps = Some dps' -> arg (funs_at (cells st)) fs = Some fs' ->
  arg (acts_at (cells st)) acts = Some acts' -> mk_domain n rs' ty' cs' ps' dps' fs' acts' = Ok d ->
  do_op st (ODomain n rs ty cs ps dps fs acts) = add_domain st d fs /\
  view_domain (do_op st (ODomain n rs ty cs ps dps fs acts)) (length (doms st)) = Some d.
Proof.
  intros E1 E2 E3 E4 E5 E6 E7 M. cbn [do_op]. unfold do_domain. rewrite E1, E2, E3, E4, E5, E6, E7, M. split; [reflexivity|].
  apply add_domain_view. intros a ->. cbn [arg] in E6. rewrite E6. apply mk_domain_inv in M as (_ & _ & _ & _ & _ & _ & _ & _ & F & _). now rewrite F.
Qed.

(** a new problem *)
Lemma do_problem_new st n d dn rs objs init g m d' rs' objs' init' p :
  optional (view_domain st) d = Some d' -> optional (reqs_at (cells st)) rs = Some rs' -> arg (consts_at (cells st)) objs = Some objs' ->
  arg (forms_at (cells st)) init = Some init' -> mk_problem n d' dn rs' objs' init' g m = Ok p ->
  let st' := do_op st (OProblem n d dn rs objs init g m) in
  view_problem st' (length (probs st)) = Some p /\ doms st' = doms st /\ domain_of st' (length (probs st)) = d /\
  (forall i, d = Some i -> requirements_of st' (length (probs st)) = option_map o_reqs (nth_error (doms st) i)).
Proof.
  intros E1 E2 E3 E4 M. cbn [do_op]. unfold do_problem. rewrite E1, E2, E3, E4, M. cbv zeta.
  set (k := length (cells st)). set (new := [_; _; _]). set (rq := match d with Some _ => _ | None => _ end).
  assert (V : forall j, nth_error (cells st ++ new) (k + j) = nth_error new j).
  { intros j. rewrite nth_error_app2 by (unfold k; lia). f_equal. unfold k. lia. }
  assert (V0 : nth_error (cells st ++ new) k = nth_error new 0) by (rewrite <- V; f_equal; lia).
  assert (KP : forall a, kept (cells st) (cells st ++ new) a) by (intros a c C; now apply nth_app).
  assert (PD : p_domain p = d' /\ p_reqs p = match d' with Some x => Some (d_reqs x) | None => match rs' with Some l => Some (dedup req_eqb l) | None => None end end).
  { unfold mk_problem in M. destruct (parse_name n) as [n'|]; [|discriminate]. cbn [bind] in M.
    destruct (parse_domain_and_name d' dn) as [dd|] eqn:PN; [|discriminate]. cbn [bind] in M. destruct (parse_requirements d' rs') as [r|] eqn:PR; [|discriminate]. cbn [bind] in M.
    destruct (check _ _); [|discriminate]. cbn [bind] in M. destruct (problem_check_consistency _); [|discriminate]. cbn [bind] in M. injection M as <-. cbn [p_domain p_reqs]. split.
    - unfold parse_domain_and_name in PN. destruct d' as [x|], dn as [y|]; try discriminate.
      + destruct (check _ _); [|discriminate]. cbn [bind] in PN. destruct (parse_name y); [|discriminate]. now injection PN as <-.
      + now injection PN as <-.
      + destruct (parse_name y); [|discriminate]. now injection PN as <-.
    - unfold parse_requirements in PR. destruct rs' as [l|], d' as [x|].
      + destruct (check _ _); [|discriminate]. now injection PR as <-.
      + now injection PR as <-.
      + now injection PR as <-.
      + now injection PR as <-. }
  destruct PD as [PD PR]. split; [|split; [reflexivity|split]].
  - unfold view_problem. cbn [probs]. rewrite nth_error_app2, Nat.sub_diag by lia. cbn [nth_error]. unfold view_pobj. cbn [q_dom q_reqs q_objs q_init q_name q_dname q_goal q_metric cells].
    unfold consts_at, forms_at, val_at. rewrite V, V0. cbn [new nth_error option_map c_val].
    assert (W1 : optional (view_domain (mkStore (cells st ++ new) (doms st) (probs st ++ [mkPobj (p_name p) d (p_domain_name p) rq k (k + 1) (p_goal p) (p_metric p)]) (plans st))) d = Some (p_domain p)).
    { rewrite PD. destruct d as [i|]; [|exact E1]. cbn [optional] in *. unfold view_domain in *. cbn [doms cells]. destruct (nth_error (doms st) i) as [o|]; [|discriminate].
      destruct (view_dobj (cells st) o) as [x|] eqn:VX; [|discriminate]. now rewrite (view_dobj_kept (cells st) (cells st ++ new) o x (KP _) (KP _) (KP _) (KP _) (KP _) (KP _) (KP _) VX). }
    assert (W2 : optional (reqs_at (cells st ++ new)) rq = Some (p_reqs p)).
    { unfold rq. rewrite PR. destruct d as [i|].
      - cbn [optional] in E1. unfold view_domain in E1. destruct (nth_error (doms st) i) as [o|]; [|discriminate]. destruct (view_dobj (cells st) o) as [x|] eqn:VX; [|discriminate].
        injection E1 as <-. cbn [option_map optional]. unfold view_dobj in VX. destruct (reqs_at (cells st) (o_reqs o)) as [l|] eqn:R; [|discriminate].
        rewrite (reqs_kept _ _ _ _ (KP _) R). cbn [option_map]. f_equal. f_equal.
        repeat match type of VX with match ?y with _ => _ end = _ => destruct y; [|discriminate] end. now injection VX as <-.
      - injection E1 as <-. destruct rs as [a|]; cbn [optional] in *; [|injection E2 as <-; reflexivity]. destruct (reqs_at (cells st) a) as [l|]; [|discriminate]. injection E2 as <-.
        unfold reqs_at, val_at. rewrite V. cbn [new nth_error option_map c_val]. now rewrite PR. }
    rewrite W1, W2. destruct p; reflexivity.
  - unfold domain_of. cbn [probs]. rewrite nth_error_app2, Nat.sub_diag by lia. reflexivity.
  - intros i ->. unfold requirements_of. cbn [probs]. rewrite nth_error_app2, Nat.sub_diag by lia. reflexivity.
Qed.
