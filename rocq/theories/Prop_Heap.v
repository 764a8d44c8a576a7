(** C67: a domain, problem or plan cannot be changed through the collections it was made from or
    those it hands out. *)
From Coq Require Import String List Bool Arith Lia.
From Verif Require Import Py Names Reqs Logic Validation Core Parser Heap Spec_Core Spec_Heap Py_facts CoreEq_facts Heap_facts.
Import ListNotations.
Open Scope string_scope.
Open Scope list_scope.

(** a constructor makes of the present contents of its arguments what Core.v says *)
Theorem C67_new : forall st n rs ty cs ps dps fs acts rs' ty' cs' ps' dps' fs' acts' d,
  arg (reqs_at (cells st)) rs = Some rs' -> optional (types_at (cells st)) ty = Some ty' -> arg (consts_at (cells st)) cs = Some cs' ->
  arg (atoms_at (cells st)) ps = Some ps' -> arg (derived_at (cells st)) dps = Some dps' -> arg (funs_at (cells st)) fs = Some fs' ->
  arg (acts_at (cells st)) acts = Some acts' -> mk_domain n rs' ty' cs' ps' dps' fs' acts' = Ok d ->
  view_domain (do_op st (ODomain n rs ty cs ps dps fs acts)) (length (doms st)) = Some d.
Proof. intros. eapply do_domain_new; eauto. Qed.
Print Assumptions C67_new.

Theorem C67_new_problem : forall st n d dn rs objs init g m d' rs' objs' init' p,
  optional (view_domain st) d = Some d' -> optional (reqs_at (cells st)) rs = Some rs' -> arg (consts_at (cells st)) objs = Some objs' ->
  arg (forms_at (cells st)) init = Some init' -> mk_problem n d' dn rs' objs' init' g m = Ok p ->
  view_problem (do_op st (OProblem n d dn rs objs init g m)) (length (probs st)) = Some p.
Proof. intros. eapply do_problem_new; eauto. Qed.
Print Assumptions C67_new_problem.
Theorem C67_new_plan : forall st a l, steps_at (cells st) a = Some l ->
  view_plan (do_op st (OPlan a)) (length (plans st)) = view_steps (cells st) l.
Proof.
  intros st a l H. cbn [do_op]. rewrite H. unfold view_plan. cbn [plans cells]. rewrite nth_error_app2, Nat.sub_diag by lia. cbn [nth_error]. now rewrite H.
Qed.
Print Assumptions C67_new_plan.
(** so does an assignment to [p.domain]; nothing else changes *)
Theorem C67_set_domain : forall st i j p d, view_problem st i = Some p -> view_domain st j = Some d ->
  let st' := do_op st (OSetDomain i j) in
  view_problem st' i = Some (fst (set_domain p d)) /\
  (forall k, k <> i -> view_problem st' k = view_problem st k) /\ (forall k, view_domain st' k = view_domain st k) /\ (forall k, view_plan st' k = view_plan st k).
Proof.
  intros st i j p d P D st'. unfold st'. cbn [do_op]. unfold view_problem in P. pose proof D as D'. unfold view_domain in D'.
  destruct (nth_error (probs st) i) as [q|] eqn:Q; [|discriminate]. destruct (nth_error (doms st) j) as [o|] eqn:O; [|discriminate]. split; [|split; [|split; reflexivity]].
  - unfold view_problem. cbn [probs]. rewrite put_same by (apply nth_error_Some; congruence). unfold view_pobj in *. cbn [q_dom q_reqs q_objs q_init q_name q_dname q_goal q_metric optional cells].
    change (view_domain (mkStore _ (doms st) _ _) j) with (view_domain st j). rewrite D. cbn [option_map].
    destruct (optional (view_domain st) (q_dom q)); [|discriminate]. destruct (optional (reqs_at (cells st)) (q_reqs q)); [|discriminate].
    destruct (consts_at _ _); [|discriminate]. destruct (forms_at _ _); [|discriminate]. injection P as <-.
    assert (N : o_name o = d_name d).
    { unfold view_dobj in D'. repeat match type of D' with match ?y with _ => _ end = _ => destruct y; [|discriminate] end. now injection D' as <-. }
    rewrite N. reflexivity.
  - intros k NE. unfold view_problem. cbn [probs]. rewrite put_other by congruence. destruct (nth_error (probs st) k); reflexivity.
Qed.
Print Assumptions C67_set_domain.

(** * False of the code *)
(** the dict given as [functions] is kept: changed later, it changes the domain, which then is one
    that the constructor would refuse *)
Definition cost : functions_dict := [(("total-cost", []), None)].
Definition shared_functions : list op :=
  [ONew (mkCell false (VFuns [])); ODomain "d" None None None None None (Some 0) None].
Theorem C67_refuted : exists d d',
  view_domain (program shared_functions empty_store) 0 = Some d /\
  view_domain (program (shared_functions ++ [OWrite 0 (VFuns cost)]) empty_store) 0 = Some d' /\
  d_functions d = [] /\ d_functions d' = cost /\ domain_eqb d d' = false /\
  mk_domain (d_name d') (d_reqs d') (Some (d_types d')) (d_constants d') (d_predicates d') (d_derived d') (d_functions d') (d_actions d')
    = Err PDDLValidationError.
Proof. do 2 eexists. repeat split; vm_compute; reflexivity. Qed.
Print Assumptions C67_refuted.
(** two domains made with one dict share it *)
Definition two_domains : list op :=
  shared_functions ++ [ODomain "e" (Some 1) None None None None (Some 0) None].
Theorem C67_shared_refuted : forall v, exists d d',
  view_domain (program (two_domains ++ [OWrite 0 (VFuns v)]) empty_store) 0 = Some d /\
  view_domain (program (two_domains ++ [OWrite 0 (VFuns v)]) empty_store) 1 = Some d' /\ d_functions d = v /\ d_functions d' = v.
Proof. intros v. do 2 eexists. repeat split; vm_compute; reflexivity. Qed.
Print Assumptions C67_shared_refuted.
(** the dict that [d.types] returns is the domain's own: the hierarchy can be made cyclic *)
Definition a_domain : list op := [ODomain "d" None None None None None None None].
Theorem C67_types_refuted : exists d d' a,
  view_domain (program a_domain empty_store) 0 = Some d /\ types_of (program a_domain empty_store) 0 = Some a /\
  view_domain (program (a_domain ++ [OWrite a (VTypes [("t", Some "t")])]) empty_store) 0 = Some d' /\
  d_types d = [] /\ d_types d' = [("t", Some "t")] /\
  forall rs, mk_types (Some (d_types d')) rs false = Err PDDLValidationError.
Proof.
  exists (mkDomain "d" [] [] [] [] [] [] []), (mkDomain "d" [] [("t", Some "t")] [] [] [] [] []), 1.
  do 5 (split; [vm_compute; reflexivity|]). intros rs. cbn [d_types].
  assert (T : to_types [("t", Some "t")] = Ok [("t", Some "t")]) by (vm_compute; reflexivity).
  unfold mk_types. rewrite T. cbn [bind]. unfold check_types_dictionary. destruct (has TYPING rs); vm_compute; reflexivity.
Qed.
Print Assumptions C67_types_refuted.
(** the set that [p.requirements] returns, and the list given to Plan, belong to the object, too *)
Definition a_problem : list op :=
  [ONew (mkCell true (VReqs [STRIPS])); OProblem "p" None (Some "d") (Some 0) None None None None].
Theorem C67_requirements_refuted : exists p p' a,
  view_problem (program a_problem empty_store) 0 = Some p /\ requirements_of (program a_problem empty_store) 0 = Some a /\
  view_problem (program (a_problem ++ [OWrite a (VReqs [ADL])]) empty_store) 0 = Some p' /\
  p_reqs p = Some [STRIPS] /\ p_reqs p' = Some [ADL] /\ problem_eqb p p' = false.
Proof. exists (mkProblem "p" None "d" (Some [STRIPS]) [] [] (FBin OAnd []) None), (mkProblem "p" None "d" (Some [ADL]) [] [] (FBin OAnd []) None), 3. repeat split; vm_compute; reflexivity. Qed.
Print Assumptions C67_requirements_refuted.
Definition a_plan : list op :=
  [ONew (mkCell false (VConsts [("o", None)])); ONew (mkCell false (VSteps [("a", 0)])); OPlan 1].
Theorem C67_plan_refuted :
  view_plan (program a_plan empty_store) 0 = Some [("a", [("o", None)])] /\
  view_plan (program (a_plan ++ [OWrite 1 (VSteps [])]) empty_store) 0 = Some [] /\
  view_plan (program (a_plan ++ [OWrite 0 (VConsts [])]) empty_store) 0 = Some [("a", [])].
Proof. repeat split; vm_compute; reflexivity. Qed.
Print Assumptions C67_plan_refuted.

(** * What does hold: nothing else changes them *)
(** a domain: only what is done to the dicts of [d.types] and [d.functions] *)
Theorem C67_domain_partial : forall st i d ops, reachable st -> view_domain st i = Some d -> spares ops st i ->
  view_domain (program ops st) i = Some d.
Proof.
  intros st i d ops (ops0 & ->) H [S1 S2]. pose proof (program_ok ops0 _ empty_ok) as OK. remember (program ops0 empty_store) as st eqn:Q.
  unfold types_of, functions_of in *. pose proof H as V. unfold view_domain in V.
  destruct (nth_error (doms st) i) as [o|] eqn:E; [|discriminate]. cbn [option_map] in *.
  apply (domain_stays st ops i o d OK E H); auto.
Qed.
Print Assumptions C67_domain_partial.
(** in particular, a later change of what was there before the domain was made, except for the dict
    given as [functions], does not touch it; nor does one of the dict that [e.types] or
    [e.functions] of another domain made without that argument returns *)
Theorem C67_arguments_partial : forall st n rs ty cs ps dps fs acts d ops,
  reachable st -> let st' := do_op st (ODomain n rs ty cs ps dps fs acts) in
  view_domain st' (length (doms st)) = Some d ->
  (forall a, writes ops a -> a < length (cells st) /\ fs <> Some a) ->
  view_domain (program ops st') (length (doms st)) = Some d.
Proof.
  intros st n rs ty cs ps dps fs acts d ops R st' V W. apply C67_domain_partial; auto.
  { destruct R as (ops0 & ->). exists (ops0 ++ [ODomain n rs ty cs ps dps fs acts]). unfold program. now rewrite fold_left_app. }
  assert (N : nth_error (doms st) (length (doms st)) = None) by (apply nth_error_None; lia).
  assert (K : (exists d', st' = add_domain st d' fs) \/ st' = st).
  { unfold st'. cbn [do_op]. unfold do_domain.
    destruct (arg (reqs_at (cells st)) rs), (optional (types_at (cells st)) ty), (arg (consts_at (cells st)) cs), (arg (atoms_at (cells st)) ps),
      (arg (derived_at (cells st)) dps), (arg (funs_at (cells st)) fs), (arg (acts_at (cells st)) acts); auto.
    destruct (mk_domain _ _ _ _ _ _ _ _) as [d'|]; eauto. }
  destruct K as [(d' & K)|K]; rewrite K in *; [|unfold view_domain in V; rewrite N in V; discriminate].
  split; intros a A I; apply W in I as [I J].
  - unfold types_of, add_domain in A. cbn [doms] in A. rewrite nth_error_app2, Nat.sub_diag in A by lia. cbn in A. injection A as <-. lia.
  - unfold functions_of, add_domain in A. cbn [doms] in A. rewrite nth_error_app2, Nat.sub_diag in A by lia. cbn [nth_error option_map o_funs] in A.
    injection A as A. destruct fs as [b|]; [now subst|lia].
Qed.
Print Assumptions C67_arguments_partial.
(** a problem: only its setter [p.domain = ..], its own set of requirements, and what changes
    its domain *)
Theorem C67_problem_partial : forall st i p ops, reachable st -> view_problem st i = Some p ->
  (forall j, ~ In (OSetDomain i j) ops) -> (forall a, requirements_of st i = Some a -> ~ writes ops a) ->
  (forall j, domain_of st i = Some j -> spares ops st j) ->
  view_problem (program ops st) i = Some p.
Proof.
  intros st i p ops (ops0 & ->) H S1 S2 S3. pose proof (program_ok ops0 _ empty_ok) as OK. remember (program ops0 empty_store) as st eqn:Q.
  unfold requirements_of, domain_of in *. pose proof H as V. unfold view_problem in V.
  destruct (nth_error (probs st) i) as [q|] eqn:E; [|discriminate].
  apply (problem_stays st ops i q p OK E H); auto using program_kept. intros j o J O. destruct (S3 j J) as [T1 T2].
  unfold types_of, functions_of in *. rewrite O in *. cbn [option_map] in *. auto.
Qed.
Print Assumptions C67_problem_partial.
(** a problem made with a domain has that domain's requirements: nothing can be changed through the
    set that [p.requirements] returns *)
Theorem C67_problem_with_domain_partial : forall st n j dn rs objs init g m d' rs' objs' init' p ops, reachable st ->
  view_domain st j = Some d' -> optional (reqs_at (cells st)) rs = Some rs' -> arg (consts_at (cells st)) objs = Some objs' ->
  arg (forms_at (cells st)) init = Some init' -> mk_problem n (Some d') dn rs' objs' init' g m = Ok p ->
  (forall k, ~ In (OSetDomain (length (probs st)) k) ops) -> spares ops st j ->
  view_problem (program ops (do_op st (OProblem n (Some j) dn rs objs init g m))) (length (probs st)) = Some p.
Proof.
  intros st n j dn rs objs init g m d' rs' objs' init' p ops (ops0 & ->) VD E2 E3 E4 M S1 [S2 S3]. set (st := program ops0 empty_store) in *. set (o := OProblem n (Some j) dn rs objs init g m).
  assert (E1 : optional (view_domain st) (Some j) = Some (Some d')) by (cbn [optional]; now rewrite VD).
  destruct (do_problem_new st n (Some j) dn rs objs init g m (Some d') rs' objs' init' p E1 E2 E3 E4 M) as (V & DM & DO & RO). fold o in V, DM, DO, RO. specialize (RO j eq_refl).
  assert (OK : store_ok (do_op st o)) by (apply do_op_ok, program_ok, empty_ok).
  unfold requirements_of, domain_of in *. pose proof V as V'. unfold view_problem in V'. destruct (nth_error (probs (do_op st o)) (length (probs st))) as [q|] eqn:Q; [|discriminate].
  apply (problem_stays _ ops _ q p OK Q V); auto.
  - intros a A. rewrite RO in A. destruct (nth_error (doms st) j) as [ob|] eqn:O; [|discriminate]. injection A as <-. apply frozen_kept.
    pose proof OK as [D _]. rewrite DM in D. rewrite Forall_forall in D. apply (D ob). apply nth_error_In with j. exact O.
  - intros k ob J O. rewrite DO in J. injection J as <-. rewrite DM in O. unfold types_of, functions_of in *. rewrite O in *. cbn [option_map] in *. auto.
Qed.
Print Assumptions C67_problem_with_domain_partial.
(** a plan: only its list and the lists in it *)
Theorem C67_plan_partial : forall st i pl ops, view_plan st i = Some pl ->
  (forall a, steps_of st i = Some a \/ arguments_of st i a -> ~ writes ops a) ->
  view_plan (program ops st) i = Some pl.
Proof.
  intros st i pl ops H N. pose proof H as V. unfold view_plan in V. unfold steps_of, arguments_of in *.
  destruct (nth_error (plans st) i) as [a|] eqn:E; [|discriminate]. destruct (steps_at (cells st) a) as [l|] eqn:S; [|discriminate].
  apply (plan_stays st ops i a l pl E S H); auto. intros n b B. apply N. right. exists a, l, n. unfold steps_of. rewrite E. auto.
Qed.
Print Assumptions C67_plan_partial.

(** ** Example: a parsed domain, a problem of it and a plan, and a program that writes to the lists
    the problem was made from and to the functions of another domain *)
Definition setup : list op :=
  [OParse "(define (domain d) (:requirements :typing) (:types t) (:predicates (p ?x - t)))";
   ONew (mkCell false (VConsts [("o", Some "t")]));
   ONew (mkCell false (VForms [FPred "p" [TConst "o" (Some "t")]]));
   OProblem "pr" (Some 0) None None (Some 7) (Some 8) None None;
   ODomain "e" None None None None None None None].
Definition later : list op :=
  [OWrite 7 (VConsts []); OWrite 8 (VForms []); OWrite 18 (VFuns cost); OWrite 0 (VReqs []); OSetDomain 1 1].
Example C67_ex : let st := program setup empty_store in
  exists d p, view_domain st 0 = Some d /\ view_problem st 0 = Some p /\ p_domain p = Some d /\
    p_objects p = [("o", Some "t")] /\ p_init p = [FPred "p" [TConst "o" (Some "t")]] /\
    spares later st 0 /\ (forall j, ~ In (OSetDomain 0 j) later) /\ (forall a, requirements_of st 0 = Some a -> a = 0) /\
    domain_of st 0 = Some 0 /\ functions_of st 1 = Some 18 /\
    view_domain (program later st) 0 = Some d /\ option_map d_functions (view_domain (program later st) 1) = Some cost.
Proof.
  do 2 eexists. split; [vm_compute; reflexivity|]. split; [vm_compute; reflexivity|]. split; [reflexivity|]. split; [reflexivity|]. split; [reflexivity|].
  split.
  { split; intros a A (v & I); vm_compute in A; injection A as <-; cbn in I; intuition discriminate. }
  split; [intros j I; cbn in I; intuition discriminate|]. split; [intros a A; vm_compute in A; congruence|].
  repeat split; vm_compute; reflexivity.
Qed.
(** the same problem, made in the state before it, and an assignment of the other domain to it *)
Example C67_problem_ex : let st := program (firstn 3 setup) empty_store in
  exists d' p, view_domain st 0 = Some d' /\ arg (consts_at (cells st)) (Some 7) = Some [("o", Some "t")] /\
    arg (forms_at (cells st)) (Some 8) = Some [FPred "p" [TConst "o" (Some "t")]] /\
    mk_problem "pr" (Some d') None None [("o", Some "t")] [FPred "p" [TConst "o" (Some "t")]] None None = Ok p /\
    (forall k, ~ In (OSetDomain (length (probs st)) k) later) /\ spares later st 0 /\
    requirements_of (program setup empty_store) 0 = Some 0 /\ In (OWrite 0 (VReqs [])) later.
Proof.
  do 2 eexists. split; [vm_compute; reflexivity|]. split; [reflexivity|]. split; [reflexivity|]. split; [vm_compute; reflexivity|].
  split; [intros j I; cbn in I; intuition discriminate|]. split.
  { split; intros a A (v & I); vm_compute in A; injection A as <-; cbn in I; intuition discriminate. }
  split; [vm_compute; reflexivity|]. cbn. tauto.
Qed.
Example C67_set_domain_ex : let st := program setup empty_store in
  exists p d, view_problem st 0 = Some p /\ view_domain st 1 = Some d /\ p_domain_name p = "d" /\
    option_map p_domain_name (view_problem (do_op st (OSetDomain 0 1)) 0) = Some "e".
Proof. do 2 eexists. repeat split; vm_compute; reflexivity. Qed.
Example C67_plan_ex : let st := program [ONew (mkCell false (VConsts [("a", None)])); ONew (mkCell false (VSteps [("m", 0)]))] empty_store in
  steps_at (cells st) 1 = Some [("m", 0)] /\ view_plan (do_op st (OPlan 1)) 0 <> None.
Proof. split; [reflexivity|]. vm_compute. discriminate. Qed.
