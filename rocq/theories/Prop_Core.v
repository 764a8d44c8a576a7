(** Property theorems C09-C14, C16-C20, C45: graphs, types, instantiation, plans, problems. *)
From Coq Require Import String List Bool ZArith QArith Relations Permutation.
From Verif Require Import Py Names Reqs Logic Validation Core Sem Spec Spec_Core Built
  Py_facts Logic_facts Ops_facts Built_facts Names_facts Order_facts CoreEq_facts
  Cycle_facts Validation_facts Inst_facts Core_facts.
Import ListNotations.
Open Scope string_scope.
Open Scope list_scope.

(** * C09 find_cycle terminates; None exactly on acyclic graphs *)
Lemma find_cycle_total : forall g, exists n r, find_cycle_run n g = Some r /\
  forall m r', find_cycle_run m g = Some r' -> r' = r.
Proof.
  intros g. destruct (find_cycle_done g) as (r & H). exists (fc_bound g), r. split; auto.
  intros m r' H'. apply find_cycle_run_eq in H, H'. congruence.
Qed.
Theorem C09_terminates : forall g, exists n r, find_cycle_run n g = Some r /\
  forall m r', find_cycle_run m g = Some r' -> r' = r.
Proof. exact find_cycle_total. Qed.
Print Assumptions C09_terminates.
Lemma find_cycle_none : forall g n r, NoDup (map fst g) -> find_cycle_run n g = Some r ->
  (r = None <-> acyclic g).
Proof.
  intros g n r ND H. apply find_cycle_run_eq in H. subst r.
  rewrite find_cycle_None. now apply gacyclic_acyclic.
Qed.
Theorem C09_none_iff_acyclic : forall g n r, NoDup (map fst g) -> find_cycle_run n g = Some r ->
  (r = None <-> acyclic g).
Proof. exact find_cycle_none. Qed.
Print Assumptions C09_none_iff_acyclic.
Example C09_ex :
  find_cycle_run 40 [("a", Some ["b"; "z"]); ("b", Some ["c"]); ("c", None)] = Some None /\
  find_cycle_run 40 [("r", Some ["a"]); ("a", Some ["b"]); ("b", Some ["a"])] = Some (Some ["r"; "a"; "b"]) /\
  find_cycle_run 2 [("a", Some ["b"; "z"]); ("b", Some ["c"]); ("c", None)] = None.
Proof. vm_compute. auto. Qed.

(** * C10 the path witnesses a cycle *)
Lemma last_map_Some {A} (l : list A) d x : last (map Some l) None = Some x -> last l d = x.
Proof.
  induction l as [|a l IH]; simpl; [discriminate|]. destruct l; simpl in *; [congruence|auto].
Qed.
Lemma find_cycle_path : forall g p, NoDup (map fst g) -> find_cycle g = Some p ->
  walk g p /\ NoDup p /\
  exists lead n cyc, p = lead ++ n :: cyc /\ edge g (last (n :: cyc) n) n /\ on_cycle g n.
Proof.
  intros g p ND H. pose proof (find_cycle_sound g p H) as (Np & W & l & n & L & E & Hn).
  split; [now apply gwalk_walk|]. split; auto.
  pose proof Hn as Hn'. apply in_split in Hn as (p1 & p2 & ->). exists p1, n, p2. split; auto.
  assert (L' : last (map Some (n :: p2)) None = Some l).
  { rewrite <- L. clear. induction p1 as [|x p1 IH]; [reflexivity|].
    rewrite IH. simpl. destruct (p1 ++ n :: p2) eqn:Q; [destruct p1; discriminate|reflexivity]. }
  apply last_map_Some with (d := n) in L'. rewrite L'. apply (gedge_edge g ND) in E. split; auto.
  (* the suffix is a cycle *)
  apply (gwalk_walk g ND) in W.
  assert (W' : walk g (n :: p2)).
  { clear -W. induction p1 as [|x p1 IH]; [exact W|]. apply IH. simpl in W.
    destruct (p1 ++ n :: p2); [destruct p1; exact I|]. apply W. }
  clear -W' L' E.
  assert (R : forall q a, walk g (a :: q) -> a = last (a :: q) a \/ clos_trans _ (edge g) a (last (a :: q) a)).
  { induction q as [|b q IH]; intros a; [now left|]. intros (Eab & Wq). right.
    assert (X : last (a :: b :: q) a = last (b :: q) b).
    { change (last (a :: b :: q) a) with (last (b :: q) a). clear. revert a b.
      induction q as [|c q IH]; intros; [reflexivity|]. change (last (b :: c :: q) a) with (last (c :: q) a).
      change (last (b :: c :: q) b) with (last (c :: q) b). rewrite (IH a c), (IH b c). reflexivity. }
    rewrite X. destruct (IH b Wq) as [<-|C]; [now apply t_step|].
    eapply t_trans; [apply t_step; exact Eab|exact C]. }
  unfold on_cycle. destruct (R p2 n W') as [X|X].
  - rewrite L' in X. rewrite <- X in E. now apply t_step.
  - eapply t_trans; [exact X|]. apply t_step. now rewrite L'.
Qed.
Theorem C10_path_witnesses_cycle : forall g p, NoDup (map fst g) -> find_cycle g = Some p ->
  walk g p /\ NoDup p /\
  exists lead n cyc, p = lead ++ n :: cyc /\ edge g (last (n :: cyc) n) n /\ on_cycle g n.
Proof. exact find_cycle_path. Qed.
Print Assumptions C10_path_witnesses_cycle.
(** the lead-in may be non-empty *)
Example C10_ex : find_cycle [("r", Some ["a"]); ("a", Some ["b"]); ("b", Some ["a"])] = Some ["r"; "a"; "b"].
Proof. vm_compute. auto. Qed.

(** * C11 type hierarchies *)
(** false as stated: :adl implies :typing, but the hierarchy is rejected under :adl alone *)
Theorem C11_refuted : ~ (forall d rs, NoDup (map fst d) ->
  ((exists t, mk_types (Some d) rs false = Ok t) <->
   types_legal d /\ ((exists k p, supertype d k p) -> typing_on rs) /\ hierarchy_ok d)).
Proof.
  intros H. destruct (H [("block", Some "thing")] [ADL]) as [_ K].
  { constructor; auto. constructor. }
  destruct K as (t & K); [|vm_compute in K; discriminate].
  assert (S : forall a b, supertype [("block", Some "thing")] a b -> a = "block" /\ b = "thing").
  { intros a b [[[= <- <-]|[]] _]. auto. }
  split; [|split; [intros _; right; now left|]].
  - split.
    + intros k v [[= <- <-]|[]]. apply parse_type_Ok. reflexivity.
    + intros k p Hs. apply S in Hs as [_ ->]. apply parse_type_Ok. reflexivity.
  - split.
    + intros p Hs. apply S in Hs as [X _]. discriminate.
    + assert (T : forall a b, clos_trans _ (supertype [("block", Some "thing")]) a b -> a = "block" /\ b = "thing").
      { intros a b C. induction C as [a b C|a b c C1 IH1 C2 IH2]; [now apply S|]. destruct IH1, IH2. auto. }
      intros n C. apply T in C as [-> X]. discriminate.
Qed.
Print Assumptions C11_refuted.
(** what holds: the requirement must be :typing itself *)
Lemma hierarchy_accepted : forall d rs, NoDup (map fst d) ->
  ((exists t, mk_types (Some d) rs false = Ok t) <->
   types_legal d /\ ((exists k p, supertype d k p) -> In TYPING rs) /\ hierarchy_ok d).
Proof.
  intros d rs ND. split.
  - intros (t & H). apply mk_types_Ok in H as (_ & H); auto.
  - intros H. exists (norm_types d). apply mk_types_Ok; auto.
Qed.
Theorem C11_partial : forall d rs, NoDup (map fst d) ->
  ((exists t, mk_types (Some d) rs false = Ok t) <->
   types_legal d /\ ((exists k p, supertype d k p) -> In TYPING rs) /\ hierarchy_ok d).
Proof. exact hierarchy_accepted. Qed.
Print Assumptions C11_partial.
Lemma domain_hierarchy : forall n ty rs, NoDup (map fst ty) -> legal_name n ->
  ((exists d, mk_domain n rs (Some ty) [] [] [] [] [] = Ok d) <->
   types_legal ty /\ ((exists k p, supertype ty k p) -> In TYPING rs) /\ hierarchy_ok ty).
Proof.
  intros n ty rs ND L. split.
  - intros (d & H). apply mk_domain_Ok in H as (_ & _ & H & _); auto.
  - intros H. eexists. apply mk_domain_Ok; auto. split; [reflexivity|]. split; auto. split; auto.
    split; [intros (? & ? & ? & [] & _)|]. split; [intros (? & ? & ? & [] & _)|].
    unfold domain_consistent. simpl. repeat split; try (intros; contradiction); intros; contradiction.
Qed.
Theorem C11_domain_partial : forall n ty rs, NoDup (map fst ty) -> legal_name n ->
  ((exists d, mk_domain n rs (Some ty) [] [] [] [] [] = Ok d) <->
   types_legal ty /\ ((exists k p, supertype ty k p) -> In TYPING rs) /\ hierarchy_ok ty).
Proof. exact domain_hierarchy. Qed.
Print Assumptions C11_domain_partial.
Lemma hierarchy_rejected : forall d rs e, NoDup (map fst d) -> types_legal d ->
  mk_types (Some d) rs false = Err e -> e = PDDLValidationError.
Proof.
  intros d rs e ND TL H. unfold mk_types in H. rewrite (proj2 (to_types_Ok d (norm_types d) ND)) in H by auto.
  simpl in H. destruct (check_types_dictionary (norm_types d) rs) as [[]|e'] eqn:C; [discriminate|].
  simpl in H. inversion H; subst. eapply check_types_dictionary_err; eauto.
Qed.
Theorem C11_error : forall d rs e, NoDup (map fst d) -> types_legal d ->
  mk_types (Some d) rs false = Err e -> e = PDDLValidationError.
Proof. exact hierarchy_rejected. Qed.
Print Assumptions C11_error.
Example C11_ex :
  mk_types (Some [("a", Some "b"); ("b", Some "c"); ("d", None)]) [TYPING] false
    = Ok [("a", Some "b"); ("b", Some "c"); ("d", None)] /\
  mk_types (Some [("a", Some "b"); ("b", Some "a")]) [TYPING] false = Err PDDLValidationError /\
  mk_types (Some [("object", Some "b")]) [TYPING] false = Err PDDLValidationError /\
  mk_types (Some [("a", Some "b")]) [] false = Err PDDLValidationError /\
  mk_types (Some [("a", None)]) [] false = Ok [("a", None)].
Proof. vm_compute. auto 10. Qed.

(** * C12 type checking *)
(** the types come out of a types dictionary that was accepted *)
Definition accepted_types (t : types_dict) : Prop :=
  exists d rs, NoDup (map fst t) /\ mk_types d rs false = Ok t.
Lemma accepted_norm t : accepted_types t -> norm_types t = t.
Proof. intros (d & rs & _ & H). now apply mk_types_norm in H. Qed.
Lemma check_form_exact : forall t rs f, accepted_types t ->
  (check_form t rs f = Ok tt <-> form_typed t rs f) /\
  (~ form_typed t rs f -> check_form t rs f = Err PDDLValidationError).
Proof.
  intros t rs f A. apply accepted_norm in A. split; [now apply check_form_Ok|].
  intros N. destruct (check_form t rs f) as [[]|e] eqn:E.
  - exfalso. apply N. now apply (check_form_Ok t rs A).
  - f_equal. eapply check_form_err; eauto.
Qed.
Theorem C12_formulas : forall t rs f, accepted_types t ->
  (check_form t rs f = Ok tt <-> form_typed t rs f) /\
  (~ form_typed t rs f -> check_form t rs f = Err PDDLValidationError).
Proof. exact check_form_exact. Qed.
Print Assumptions C12_formulas.
Lemma check_action_exact : forall t rs n ps p e, accepted_types t ->
  let a := mkAction n ps (Some p) (Some e) in
  (check_action t rs a = Ok tt <-> action_typed t rs a) /\
  (~ action_typed t rs a -> check_action t rs a = Err PDDLValidationError).
Proof.
  intros t rs n ps p e A a. apply accepted_norm in A.
  assert (K : check_action t rs a = Ok tt <-> action_typed t rs a).
  { rewrite (check_action_Ok t rs A). split; [tauto|]. intros H. split; [discriminate|]. split; [discriminate|auto]. }
  split; auto. intros N. destruct (check_action t rs a) as [[]|x] eqn:E.
  - exfalso. apply N. now apply K.
  - f_equal. eapply check_action_err; [| |exact E]; discriminate.
Qed.
Theorem C12_actions : forall t rs n ps p e, accepted_types t ->
  let a := mkAction n ps (Some p) (Some e) in
  (check_action t rs a = Ok tt <-> action_typed t rs a) /\
  (~ action_typed t rs a -> check_action t rs a = Err PDDLValidationError).
Proof. exact check_action_exact. Qed.
Print Assumptions C12_actions.
Lemma accepted_not_legal : forall t d rs, mk_types d rs false = Ok t -> accepted_types t.
Proof. intros t d rs H. exists d, rs. split; auto. now apply mk_types_norm in H. Qed.
Example C12_ex : accepted_types [("a", Some "b"); ("c", None)]
  /\ check_form [("a", Some "b"); ("c", None)] [ADL]
       (FQuant QForall [mkVar "x" ["b"]] (FWhen (FPred "p" [TVar (mkVar "x" ["b"])]) (FNot (FPred "q" [TConst "k" (Some "c")])))) = Ok tt
  /\ check_form [("a", Some "b"); ("c", None)] [ADL]
       (FQuant QForall [mkVar "x" ["d"]] (FPred "p" [])) = Err PDDLValidationError
  /\ check_form [("a", Some "b"); ("c", None)] []
       (FQuant QForall [mkVar "x" ["a"]] (FPred "p" [])) = Err PDDLValidationError.
Proof.
  split; [apply (accepted_not_legal _ (Some [("a", Some "b"); ("c", None)]) [TYPING]); reflexivity|].
  vm_compute. auto.
Qed.

(** * C13 declared types *)
(** false for functions *)
Theorem C13_functions_refuted : ~ (forall n rs ty cs ps dps fs acts d,
  mk_domain n rs ty cs ps dps fs acts = Ok d ->
  forall f ts v t g, In ((f, ts), v) (d_functions d) -> In t ts -> In g (t_tags t) -> declared (d_types d) g).
Proof.
  intros H.
  assert (K := H "d" [FLUENTS] None [] [] [] [(("f", [TVar (mkVar "x" ["ghost"])]), None)] [] _ eq_refl
     "f" [TVar (mkVar "x" ["ghost"])] None (TVar (mkVar "x" ["ghost"])) "ghost"
     (or_introl eq_refl) (or_introl eq_refl) (or_introl eq_refl)).
  simpl in K. destruct K as [(v & [])|(c & [] & _)].
Qed.
Print Assumptions C13_functions_refuted.
(** false for the conditions of derived predicates *)
Theorem C13_derived_refuted : ~ (forall n rs ty cs ps dps fs acts d,
  mk_domain n rs ty cs ps dps fs acts = Ok d ->
  forall x t g, In x (d_derived d) -> occurs t (dp_cond x) -> In g (t_tags t) -> declared (d_types d) g).
Proof.
  intros H.
  pose (x := mkDerived "p" [] (FPred "q" [TVar (mkVar "x" ["ghost"])])).
  assert (K := H "d" [] None [] [] [x] [] [] _ eq_refl x (TVar (mkVar "x" ["ghost"])) "ghost" (or_introl eq_refl)
     (O_pred (TVar (mkVar "x" ["ghost"])) "q" [TVar (mkVar "x" ["ghost"])] (or_introl eq_refl)) (or_introl eq_refl)).
  simpl in K. destruct K as [(v & [])|(c & [] & _)].
Qed.
Print Assumptions C13_derived_refuted.
Lemma domain_types_declared : forall n rs ty cs ps dps fs acts d,
  mk_domain n rs ty cs ps dps fs acts = Ok d ->
  (forall c t, In c (d_constants d) -> snd c = Some t -> declared (d_types d) t) /\
  (forall p t g, In p (d_predicates d) -> In t (snd p) -> In g (t_tags t) -> declared (d_types d) g) /\
  (forall x t g, In x (d_derived d) -> In t (dp_terms x) -> In g (t_tags t) -> declared (d_types d) g) /\
  (forall a t g, In a (d_actions d) -> In t (a_params a) -> In g (t_tags t) -> declared (d_types d) g) /\
  (forall a f t g, In a (d_actions d) -> a_pre a = Some f \/ a_eff a = Some f -> occurs t f ->
     In g (t_tags t) -> declared (d_types d) g).
Proof.
  intros n rs ty cs ps dps fs acts d H.
  assert (DB : domain_built d) by (repeat eexists; eauto).
  destruct (domain_built_types d DB) as (_ & _ & N).
  assert (C : domain_check_consistency d = Ok tt).
  { unfold mk_domain in H. apply bind_Ok in H as (? & _ & H). apply bind_Ok in H as (? & _ & H).
    apply bind_Ok in H as (? & _ & H). apply bind_Ok in H as ([] & C & H). inversion H; subst. exact C. }
  apply domain_check_Ok in C; auto. destruct C as (A & B & C & D).
  split; [|split; [|split; [|split]]].
  - intros c t Hc Ht. destruct (A c Hc) as [_ X]. apply X. destruct c; simpl in *; subst. now left.
  - intros p t g Hp Ht Hg. destruct (B p t Hp Ht) as [_ X]. auto.
  - exact D.
  - intros a t g Ha Ht Hg. destruct (C a Ha) as (_ & _ & X & _). destruct (X t Ht) as [_ Y]. auto.
  - intros a f t g Ha Hf Ho Hg. destruct (C a Ha) as (_ & _ & _ & X & Y).
    destruct Hf as [Hf|Hf]; [rewrite Hf in X; destruct (X t Ho) as [_ Z]|rewrite Hf in Y; destruct (Y t Ho) as [_ Z]]; auto.
Qed.
Theorem C13_partial : forall n rs ty cs ps dps fs acts d,
  mk_domain n rs ty cs ps dps fs acts = Ok d ->
  (forall c t, In c (d_constants d) -> snd c = Some t -> declared (d_types d) t) /\
  (forall p t g, In p (d_predicates d) -> In t (snd p) -> In g (t_tags t) -> declared (d_types d) g) /\
  (forall x t g, In x (d_derived d) -> In t (dp_terms x) -> In g (t_tags t) -> declared (d_types d) g) /\
  (forall a t g, In a (d_actions d) -> In t (a_params a) -> In g (t_tags t) -> declared (d_types d) g) /\
  (forall a f t g, In a (d_actions d) -> a_pre a = Some f \/ a_eff a = Some f -> occurs t f ->
     In g (t_tags t) -> declared (d_types d) g).
Proof. exact domain_types_declared. Qed.
Print Assumptions C13_partial.
(** the domain constructor, exactly *)
Theorem C13_domain_accepted_iff : forall n rs ty cs ps dps fs acts d, NoDup (map fst ty) ->
  mk_domain n rs (Some ty) cs ps dps fs acts = Ok d <->
  d = mkDomain n (dedup req_eqb rs) (norm_types ty) (dedup const_eqb cs) (dedup atom_eqb ps)
               (dedup derived_eqb dps) fs (dedup action_eqb acts) /\
  legal_name n /\
  (types_legal ty /\ ((exists k p, supertype ty k p) -> In TYPING rs) /\ hierarchy_ok ty) /\
  ((exists n ts v, In ((n, ts), v) fs /\ n = "total-cost") -> In ACTION_COSTS rs) /\
  ((exists n ts v, In ((n, ts), v) fs /\ n <> "total-cost") -> In NUMERIC_FLUENTS rs \/ In FLUENTS rs) /\
  domain_consistent d.
Proof. exact mk_domain_Ok. Qed.
Print Assumptions C13_domain_accepted_iff.
Definition vx := mkVar "x" ["a"].
Definition C13_domain := mk_domain "d" [TYPING] (Some [("a", Some "b")]) [("k", Some "b")]
   [("p", [TVar vx])] [mkDerived "dp" [TVar vx] (FPred "p" [TVar vx])] []
   [mkAction "act" [TVar vx] (Some (FPred "p" [TVar vx])) (Some (FNot (FPred "p" [TConst "k" (Some "b")])))].
Example C13_ex : exists d, C13_domain = Ok d.
Proof. vm_compute. eauto. Qed.

(** * C14 optional precondition and effect: an action can be built without them, but a domain
    with it is rejected (with a NotImplementedError) *)
Theorem C14_refuted : ~ (forall n rs acts, legal_name n ->
  (forall a, In a acts -> legal_name (a_name a) /\ action_typed [] rs a) ->
  exists d, mk_domain n rs None [] [] [] [] acts = Ok d).
Proof.
  intros H. destruct (H "d" [] [mkAction "a" [] None None]) as (d & D).
  - apply parse_name_Ok. reflexivity.
  - intros a [<-|[]]. split; [apply parse_name_Ok; reflexivity|]. split; [intros t []|]. split; exact I.
  - vm_compute in D. discriminate.
Qed.
Print Assumptions C14_refuted.
(** building the action itself works for every legal name, with or without body *)
Theorem C14_action_partial : forall n ps p e, legal_name n -> mk_action n ps p e = Ok (mkAction n ps p e).
Proof. intros n ps p e L. unfold mk_action. rewrite (proj2 (parse_name_Ok n) L). reflexivity. Qed.
Print Assumptions C14_action_partial.
(** in a domain, both are compulsory *)
Lemma domain_bodies : forall n rs ty cs ps dps fs acts d,
  mk_domain n rs ty cs ps dps fs acts = Ok d ->
  forall a, In a (d_actions d) -> a_pre a <> None /\ a_eff a <> None.
Proof.
  intros n rs ty cs ps dps fs acts d H a Ha.
  assert (DB : domain_built d) by (repeat eexists; eauto).
  destruct (domain_built_types d DB) as (_ & _ & N).
  unfold mk_domain in H. apply bind_Ok in H as (? & _ & H). apply bind_Ok in H as (? & _ & H).
  apply bind_Ok in H as (? & _ & H). apply bind_Ok in H as ([] & C & H). inversion H; subst.
  apply domain_check_Ok in C; auto. destruct C as (_ & _ & C & _). destruct (C a Ha) as (X & Y & _). auto.
Qed.
Theorem C14_bodies_compulsory : forall n rs ty cs ps dps fs acts d,
  mk_domain n rs ty cs ps dps fs acts = Ok d ->
  forall a, In a (d_actions d) -> a_pre a <> None /\ a_eff a <> None.
Proof. exact domain_bodies. Qed.
Print Assumptions C14_bodies_compulsory.
Example C14_ex : mk_domain "d" [] None [] [] [] [] [mkAction "a" [] None None] = Err NotImplementedError
  /\ exists d, mk_domain "d" [] None [] [] [] [] [mkAction "a" [] (Some (FPred "p" [])) (Some (FPred "p" []))] = Ok d.
Proof. vm_compute. eauto. Qed.

(** * C16 instantiation is substitution *)
Definition bools : interp :=
  {| obj := bool; i_const := fun n => String.eqb n "t"; i_pred := fun _ os => hd false os = true;
     i_func := fun _ _ => 1%Q; i_type := fun _ _ => True |}.
Definition x0 := mkVar "x" []. Definition y0 := mkVar "y" [].
Ltac chase := repeat (match goal with
  | H : In _ [] |- _ => destruct H
  | H : In _ (_ :: _) |- _ => destruct H as [H|H]; [try discriminate H; try (injection H as <-); subst|]
  | H : binds _ _ |- _ => inversion H; subst; clear H
  | H : argument _ _ |- _ => inversion H; subst; clear H
  | H : within _ _ |- _ => inversion H; subst; clear H
  end).
(** bound occurrences are replaced: forall x. p(x) becomes forall x. p(t) *)
Theorem C16_bound_refuted : ~ (forall I m f e g, instantiate m f = Ok g ->
  (holds I e g <-> holds I (bind_env m e) f)).
Proof.
  intros H. pose (f := FQuant QForall [x0] (FPred "p" [TVar x0])).
  destruct (H bools [(TVar x0, TConst "t" None)] f (fun _ => false)
     (FQuant QForall [x0] (FPred "p" [TConst "t" None])) eq_refl) as [A _].
  assert (X : holds bools (fun _ => false) (FQuant QForall [x0] (FPred "p" [TConst "t" None]))).
  { intros e' _. reflexivity. }
  specialize (A X (fun _ => false)). simpl in A. unfold bools in A. simpl in A.
  enough (false = true) by discriminate. apply A. split.
  - intros n N. unfold bind_env, image, x0, t_name, v_name. simpl in N.
    destruct (String.eqb_spec "x" n); [exfalso; tauto|reflexivity].
  - intros v [<-|[]]. left. reflexivity.
Qed.
Print Assumptions C16_bound_refuted.
(** capture: the free x of exists y. q(x) and not q(y) becomes the bound y *)
Theorem C16_capture_refuted : ~ (forall I m f e g, (forall v, binds v f -> forall k u, In (k, u) m -> t_name k <> v_name v) ->
  instantiate m f = Ok g -> (holds I e g <-> holds I (bind_env m e) f)).
Proof.
  intros H.
  pose (f := FQuant QExists [y0] (FBin OAnd [FPred "q" [TVar x0]; FNot (FPred "q" [TVar y0])])).
  pose (g := FQuant QExists [y0] (FBin OAnd [FPred "q" [TVar y0]; FNot (FPred "q" [TVar y0])])).
  destruct (H bools [(TVar x0, TVar y0)] f (fun _ => true) g) as [_ B]; [|reflexivity|].
  - intros v B k u [[= <- <-]|[]]. unfold f in B. clear H. chase; discriminate.
  - assert (X : holds bools (@bind_env bools [(TVar x0, TVar y0)] (fun _ => true)) f).
    { exists (fun n => if String.eqb n "y" then false else true). split.
      - split; [|intros v [<-|[]]; left; reflexivity]. intros n N. unfold bind_env, image, x0, t_name, v_name. simpl in N.
        destruct (String.eqb_spec n "y") as [->|]; [exfalso; tauto|].
        destruct (String.eqb_spec "x" n); reflexivity.
      - simpl. split; [reflexivity|]. split; [|exact I]. discriminate. }
    destruct (B X) as (e' & _ & Y & Z & _). contradiction.
Qed.
Print Assumptions C16_capture_refuted.
(** summands that become equal are merged: f(x) + f(y) becomes f(t) *)
Theorem C16_merge_refuted : ~ (forall I m f e g, is_cond f -> names_agree m f -> no_capture m f ->
  instantiate m f = Ok g -> (holds I e g <-> holds I (bind_env m e) f)).
Proof.
  intros H.
  pose (s := FBinFun BPlus [FNumFun "f" [TVar x0]; FNumFun "f" [TVar y0]]).
  pose (f := FBinFun BGreater [s; FNumVal (NInt 1)]).
  pose (m := [(TVar x0, TConst "t" None); (TVar y0, TConst "t" None)]).
  destruct (instantiate m f) as [g|e] eqn:E; [|vm_compute in E; discriminate].
  destruct (H bools m f (fun _ => true) g) as [_ B]; auto.
  - apply C_cmp; [unfold comparison; auto|]. repeat constructor.
  - intros v A k u Hk Ek.
    assert (V : v = x0 \/ v = y0).
    { unfold f, s in A. clear -A. chase; auto. }
    destruct Hk as [[= <- <-]|[[= <- <-]|[]]], V as [->| ->]; auto; discriminate.
  - intros v A. exfalso. unfold f, s in A. clear -A. chase.
  - vm_compute in E. inversion E; subst g.
    assert (X : holds bools (@bind_env bools m (fun _ => true)) f) by (vm_compute; reflexivity).
    apply B in X. vm_compute in X. discriminate.
Qed.
Print Assumptions C16_merge_refuted.
(** what holds: conditions whose quantifiers do not bind mapped variables or variables of images,
    and whose arithmetic nodes keep their operands *)
Theorem C16_partial : forall I m f e g,
  is_cond f -> names_agree m f -> no_capture m f -> arith_kept m f ->
  instantiate m f = Ok g -> (holds I e g <-> holds I (bind_env m e) f).
Proof. exact holds_inst. Qed.
Print Assumptions C16_partial.
Example C16_ex :
  let f := FQuant QExists [y0] (FBin OOr [FPred "q" [TVar x0; TVar y0]; FEq (TVar x0) (TConst "k" None)]) in
  let m := [(TVar x0, TConst "t" None)] in
  is_cond f /\ names_agree m f /\ no_capture m f /\ arith_kept m f /\ exists g, instantiate m f = Ok g /\ g <> f.
Proof.
  cbv zeta. split; [|split; [|split; [|split]]].
  - repeat constructor; discriminate.
  - intros v A k u [[= <- <-]|[]] E. chase; try reflexivity; discriminate E.
  - intros v B k u [[= <- <-]|[]]. chase. split; [discriminate|]. intros w. discriminate.
  - intros k ops ops' W. exfalso. chase.
  - eexists. split; [reflexivity|]. discriminate.
Qed.

(** * C17 grounding an action *)
Theorem C17_wrong_number : forall a ts, length ts <> length (a_params a) ->
  action_instantiate a ts = Err ValueError.
Proof. exact action_instantiate_arity. Qed.
Print Assumptions C17_wrong_number.
(** the right number is not enough: constants of one name with different types *)
Theorem C17_refuted : ~ (forall a ts, schema_ok a ->
  action_instantiate a ts = Err ValueError -> length ts <> length (a_params a)).
Proof.
  intros H. pose (p := FPred "p" [TVar x0; TVar y0]).
  refine (H (mkAction "a" [TVar x0; TVar y0] (Some p) None) [TConst "k" (Some "t1"); TConst "k" (Some "t2")] _ eq_refl eq_refl).
  split; [exists [x0; y0]; reflexivity|]. split; [apply parse_name_Ok; reflexivity|].
  split; intros f [[= <-]|X]; try discriminate X.
  - apply (B_pred "p" [TVar x0; TVar y0]). reflexivity.
  - exact I.
Qed.
Print Assumptions C17_refuted.
(** with one type per name among the terms, the right number of terms suffices *)
Lemma action_instantiate_total : forall a ts, schema_ok a -> length ts = length (a_params a) ->
  consistent (grounded_terms a ts) ->
  exists a', action_instantiate a ts = Ok a'.
Proof. intros a ts ((vs & PV) & LN & B & P) L C. eapply action_instantiate_Ok; eauto. Qed.
Theorem C17_right_number_partial : forall a ts, schema_ok a -> length ts = length (a_params a) ->
  consistent (grounded_terms a ts) ->
  exists a', action_instantiate a ts = Ok a'.
Proof. exact action_instantiate_total. Qed.
Print Assumptions C17_right_number_partial.
Lemma action_instantiate_result : forall a vs ts a', param_vars a vs ->
  action_instantiate a ts = Ok a' ->
  a_name a' = a_name a /\ a_params a' = ts /\
  ((forall t, In t ts -> exists n g, t = TConst n g) ->
   forall v w, In v vs -> var_eqb v w = true -> ~ body_terms a' (TVar w)).
Proof.
  intros a vs ts a' PV H. pose proof (action_instantiate_inv _ _ _ H) as (_ & E1 & E2 & _).
  split; auto. split; auto. intros G. eapply action_instantiate_ground; eauto.
Qed.
Theorem C17_grounded : forall a vs ts a', param_vars a vs ->
  action_instantiate a ts = Ok a' ->
  a_name a' = a_name a /\ a_params a' = ts /\
  ((forall t, In t ts -> exists n g, t = TConst n g) ->
   forall v w, In v vs -> var_eqb v w = true -> ~ body_terms a' (TVar w)).
Proof. exact action_instantiate_result. Qed.
Print Assumptions C17_grounded.
(** conditional effects are not supported at all *)
Example C17_when : forall ts, length ts = 0%nat ->
  action_instantiate (mkAction "a" [] None (Some (FWhen (FPred "p" []) (FPred "q" [])))) ts = Err AttributeError.
Proof. intros [|t ts] L; [reflexivity|discriminate]. Qed.
Example C17_ex :
  let a := mkAction "a" [TVar x0] (Some (FPred "p" [TVar x0; TVar y0])) (Some (FNot (FPred "p" [TVar x0; TConst "k" None]))) in
  schema_ok a /\ consistent (grounded_terms a [TConst "k" None]) /\
  action_instantiate a [TConst "k" None] =
    Ok (mkAction "a" [TConst "k" None] (Some (FPred "p" [TConst "k" None; TVar y0])) (Some (FNot (FPred "p" [TConst "k" None; TConst "k" None])))).
Proof.
  cbv zeta. split; [|split; [|reflexivity]].
  - split; [exists [x0]; reflexivity|]. split; [apply parse_name_Ok; reflexivity|].
    split; intros f [[= <-]|[= <-]].
    + apply (B_pred "p" [TVar x0; TVar y0]). reflexivity.
    + apply (B_not (FPred "p" [TVar x0; TConst "k" None])). apply (B_pred "p" [TVar x0; TConst "k" None]). reflexivity.
    + exact I.
    + exact I.
  - assert (T : forall t, grounded_terms (mkAction "a" [TVar x0] (Some (FPred "p" [TVar x0; TVar y0])) (Some (FNot (FPred "p" [TVar x0; TConst "k" None])))) [TConst "k" None] t ->
                t_tags t = []).
    { intros t [[<-|[]]|[(f & [[= <-]|[= <-]] & A) _]]; auto.
      - inversion A; subst. destruct H0 as [<-|[<-|[]]]; reflexivity.
      - inversion A; subst. inversion H0; subst. destruct H1 as [<-|[<-|[]]]; reflexivity. }
    intros t u Ht Hu _ g. rewrite (T t Ht), (T u Hu). tauto.
Qed.

(** * C18 Plan.check *)
(** two actions of one name (accepted by Domain): the verdict depends on the set's order *)
Theorem C18_refuted : ~ (forall pl d d' p, domain_built d -> domain_built d' ->
  d_constants d = d_constants d' -> Permutation (d_actions d) (d_actions d') ->
  plan_check pl d p = plan_check pl d' p).
Proof.
  intros H. pose (t := Some (FPred "p" [])).
  pose (a := mkAction "a" [] t t). pose (b := mkAction "a" [TVar x0] t t).
  pose (d := fun l => mkDomain "d" [] [] [] [] [] [] l).
  assert (D : forall l, l = [a; b] \/ l = [b; a] -> domain_built (d l)).
  { intros l [->| ->]; exists "d", [], None, [], [], [], []; eexists; [instantiate (1 := [a; b])|instantiate (1 := [b; a])]; reflexivity. }
  pose (p := mkProblem "p" None "d" None [] [] (FPred "p" []) None).
  specialize (H [("a", [])] (d [a; b]) (d [b; a]) p (D _ (or_introl eq_refl)) (D _ (or_intror eq_refl)) eq_refl (perm_swap _ _ _)).
  vm_compute in H. discriminate.
Qed.
Print Assumptions C18_refuted.
Theorem C18_partial : forall d p pl, NoDup (map a_name (d_actions d)) ->
  (plan_check pl d p = Ok tt <-> forall st, In st pl -> known_step d p st).
Proof. exact plan_check_Ok. Qed.
Print Assumptions C18_partial.
Theorem C18_error : forall d p pl e, plan_check pl d p = Err e -> e = PDDLValidationError.
Proof. exact plan_check_err. Qed.
Print Assumptions C18_error.
Theorem C18_order_partial : forall pl d d' p p',
  NoDup (map a_name (d_actions d)) -> Permutation (d_actions d) (d_actions d') ->
  Permutation (d_constants d) (d_constants d') -> Permutation (p_objects p) (p_objects p') ->
  plan_check pl d p = plan_check pl d' p'.
Proof. exact plan_check_perm. Qed.
Print Assumptions C18_order_partial.
Example C18_ex :
  let d := mkDomain "d" [] [] [("k", None)] [] [] [] [mkAction "a" [TVar x0; TVar y0] None None] in
  let p := mkProblem "p" None "d" None [("o", Some "t")] [] (FPred "p" []) None in
  NoDup (map a_name (d_actions d)) /\
  plan_check [("a", [("k", None); ("o", None)])] d p = Ok tt /\
  plan_check [("a", [("k", None); ("z", None)])] d p = Err PDDLValidationError /\
  plan_check [("b", [])] d p = Err PDDLValidationError.
Proof. cbv zeta. split; [repeat constructor; intros []|]. vm_compute. auto. Qed.

(** * C19 a checked plan can be instantiated *)
(** false with conditional effects *)
Theorem C19_refuted : ~ (forall pl d p, domain_built d -> plan_check pl d p = Ok tt ->
  exists l, plan_instantiate pl d = Ok l).
Proof.
  intros H. pose (t := FPred "p" []). pose (a := mkAction "a" [] (Some t) (Some (FWhen t t))).
  pose (p := mkProblem "p" None "d" None [] [] t None).
  destruct (H [("a", [])] (mkDomain "d" [] [] [] [] [] [] [a]) p) as (l & L).
  - exists "d", [], None, [], [], [], [], [a]. reflexivity.
  - reflexivity.
  - vm_compute in L. discriminate.
Qed.
Print Assumptions C19_refuted.
Theorem C19_partial : forall pl d p,
  (forall a, In a (d_actions d) -> schema_ok a) ->
  (forall st a, In st pl -> In a (d_actions d) -> a_name a = fst st ->
     consistent (grounded_terms a (map const_term (snd st)))) ->
  plan_check pl d p = Ok tt ->
  exists l, plan_instantiate pl d = Ok l /\
    Forall2 (fun st a => a_name a = fst st /\ a_params a = map const_term (snd st)) pl l.
Proof. exact plan_instantiate_Ok. Qed.
Print Assumptions C19_partial.
Example C19_ex :
  let a := mkAction "a" [TVar x0] (Some (FPred "p" [TVar x0])) (Some (FPred "q" [])) in
  let d := mkDomain "d" [] [] [("k", None)] [] [] [] [a] in
  let p := mkProblem "p" None "d" None [] [] (FPred "p" []) None in
  schema_ok a /\ plan_check [("a", [("k", None)])] d p = Ok tt /\
  consistent (grounded_terms a [TConst "k" None]).
Proof.
  cbv zeta. split; [|split; [reflexivity|]].
  - split; [exists [x0]; reflexivity|]. split; [apply parse_name_Ok; reflexivity|].
    split; intros f [[= <-]|[= <-]]; try exact I.
    + apply (B_pred "p" [TVar x0]). reflexivity.
    + apply (B_pred "q" []). reflexivity.
  - assert (T : forall t, grounded_terms (mkAction "a" [TVar x0] (Some (FPred "p" [TVar x0])) (Some (FPred "q" []))) [TConst "k" None] t -> t_tags t = []).
    { intros t [[<-|[]]|[(f & [[= <-]|[= <-]] & A) _]]; auto.
      - inversion A; subst. destruct H0 as [<-|[]]; reflexivity.
      - inversion A; subst. destruct H0. }
    intros t u Ht Hu _ g. rewrite (T t Ht), (T u Hu). tauto.
Qed.

(** * C20 problems and their domain *)
(** a rejected assignment changes the problem *)
Theorem C20_refuted : ~ (forall p d p' e, problem_reach p -> domain_built d ->
  set_domain p d = (p', Err e) -> p' = p).
Proof.
  intros H. pose (t := FPred "p" [TConst "k" (Some "ty")]).
  destruct (mk_problem "p" None (Some "d1") None [] [] (Some t) None) as [p|e] eqn:E; [|vm_compute in E; discriminate].
  assert (R : problem_reach p) by (eapply PR_new; [|exact E]; intros x X; discriminate).
  pose (d := mkDomain "d2" [] [] [] [] [] [] []).
  assert (D : domain_built d) by (exists "d2", [], None, [], [], [], [], []; reflexivity).
  vm_compute in E. inversion E; subst p.
  specialize (H _ d _ PDDLValidationError R D eq_refl). discriminate.
Qed.
Print Assumptions C20_refuted.
(** observably: domain_name and requirements change *)
Example C20_observable :
  let p := mkProblem "p" None "d1" None [] [] (FPred "p" [TConst "k" (Some "ty")]) None in
  let d := mkDomain "d2" [TYPING] [] [] [] [] [] [] in
  exists p', set_domain p d = (p', Err PDDLValidationError) /\
    get_domain_name p' <> get_domain_name p /\ get_requirements p' <> get_requirements p.
Proof. cbv zeta. eexists. split; [reflexivity|]. vm_compute. split; discriminate. Qed.
Lemma problem_consistent : forall p d, problem_reach p -> p_domain p = Some d ->
  get_domain_name p = d_name d /\ get_requirements p = d_reqs d /\
  (forall rs, p_reqs p = Some rs -> incl rs (d_reqs d)) /\ problem_typed p d.
Proof.
  intros p d R E. destruct (problem_reach_ok p R d E) as [DB C].
  apply (problem_check_Ok p d DB) in C as (_ & C2 & C3).
  unfold get_domain_name, get_requirements. rewrite E. auto.
Qed.
Theorem C20_partial : forall p d, problem_reach p -> p_domain p = Some d ->
  get_domain_name p = d_name d /\ get_requirements p = d_reqs d /\
  (forall rs, p_reqs p = Some rs -> incl rs (d_reqs d)) /\ problem_typed p d.
Proof. exact problem_consistent. Qed.
Print Assumptions C20_partial.
(** the name of the domain a problem was written for is not compared on assignment *)
Theorem C20_name_mismatch_accepted : exists p d p', problem_reach p /\ domain_built d /\
  set_domain p d = (p', Ok tt) /\ get_domain_name p = "d1" /\ d_name d = "d2".
Proof.
  destruct (mk_problem "p" None (Some "d1") None [] [] None None) as [p|e] eqn:E; [|vm_compute in E; discriminate].
  exists p, (mkDomain "d2" [] [] [] [] [] [] []). eexists. split; [eapply PR_new; [|exact E]; intros x X; discriminate|].
  split; [exists "d2", [], None, [], [], [], [], []; reflexivity|].
  vm_compute in E. inversion E; subst p. split; [reflexivity|]. auto.
Qed.
Print Assumptions C20_name_mismatch_accepted.
Example C20_ex : exists p d, problem_reach p /\ p_domain p = Some d /\ p_objects p <> [].
Proof.
  pose (d := mkDomain "d" [TYPING] [("ty", None)] [] [] [] [] []).
  destruct (mk_problem "p" None (Some "d") None [("k", Some "ty")] [] None None) as [p|e] eqn:E; [|vm_compute in E; discriminate].
  destruct (set_domain p d) as [p' r] eqn:S. exists p', d.
  assert (r = Ok tt) as ->.
  { vm_compute in E. inversion E; subst p. vm_compute in S. now inversion S. }
  split; [|vm_compute in E; inversion E; subst p; vm_compute in S; inversion S; split; [reflexivity|discriminate]].
  eapply PR_set; [|exists "d", [TYPING], (Some [("ty", None)]), [], [], [], [], []; reflexivity|exact S].
  eapply PR_new; [|exact E]. intros x X. discriminate.
Qed.

(** * C45 functions and requirements *)
Lemma domain_functions : forall n rs ty cs ps dps fs acts d,
  mk_domain n rs ty cs ps dps fs acts = Ok d ->
  d_functions d = fs /\
  ((exists ts v, In (("total-cost", ts), v) fs) -> In ACTION_COSTS rs) /\
  ((exists n ts v, In ((n, ts), v) fs /\ n <> "total-cost") -> In NUMERIC_FLUENTS rs \/ In FLUENTS rs).
Proof.
  intros n rs ty cs ps dps fs acts d H. unfold mk_domain in H.
  apply bind_Ok in H as (? & _ & H). apply bind_Ok in H as (? & _ & H).
  apply bind_Ok in H as ([] & C & H). apply bind_Ok in H as (? & _ & H). inversion H; subst. simpl.
  split; auto. rewrite check_total_cost_Ok in C.
  assert (RQ : forall r, In r (dedup req_eqb rs) <-> In r rs).
  { intros r. rewrite <- !memb_req_In. now rewrite (memb_dedup _ req_eqb_equiv). }
  rewrite !RQ in C. destruct C as [C1 C2]. split; auto. intros (ts & v & I0). apply C1. eauto 6.
Qed.
Theorem C45_functions : forall n rs ty cs ps dps fs acts d,
  mk_domain n rs ty cs ps dps fs acts = Ok d ->
  d_functions d = fs /\
  ((exists ts v, In (("total-cost", ts), v) fs) -> In ACTION_COSTS rs) /\
  ((exists n ts v, In ((n, ts), v) fs /\ n <> "total-cost") -> In NUMERIC_FLUENTS rs \/ In FLUENTS rs).
Proof. exact domain_functions. Qed.
Print Assumptions C45_functions.
(** and with the requirements they are accepted *)
Theorem C45_accepted : forall fs rs,
  check_total_cost fs rs = Ok tt <->
  ((exists n ts v, In ((n, ts), v) fs /\ n = "total-cost") -> In ACTION_COSTS rs) /\
  ((exists n ts v, In ((n, ts), v) fs /\ n <> "total-cost") -> In NUMERIC_FLUENTS rs \/ In FLUENTS rs).
Proof. exact check_total_cost_Ok. Qed.
Print Assumptions C45_accepted.
Example C45_ex :
  let fs := [(("total-cost", []), Some "number"); (("fuel", [TVar x0]), None)] in
  (exists d, mk_domain "d" [ACTION_COSTS; FLUENTS] None [] [] [] fs [] = Ok d) /\
  mk_domain "d" [FLUENTS] None [] [] [] fs [] = Err PDDLValidationError /\
  mk_domain "d" [ACTION_COSTS] None [] [] [] fs [] = Err PDDLValidationError.
Proof. cbv zeta. split; [eexists; reflexivity|]. vm_compute. auto. Qed.
