(** Leaving out, repeating or moving definitions. *)
From Coq Require Import String List Bool.
From Verif Require Import Py Names Reqs Logic Validation Core Lexer TypedList UpdateTags Parser.
From Verif Require Import Spec Spec_Core Spec_Parse Spec_Same Spec_Apart.
From Verif Require Twice_facts Format_facts FormatDomain_facts.
From Verif Require Import Py_facts Names_facts Logic_facts Validation_facts Core_facts CoreEq_facts GD_facts Inst_facts Domain_facts DomainRead_facts Action_facts Built_facts Apart_facts.
Import ListNotations.
Open Scope string_scope.
Open Scope list_scope.

(** * Equal formulas have equal terms *)
Lemma Forall2_In_l {A B} (R : A -> B -> Prop) l m x : Forall2 R l m -> In x l -> exists y, In y m /\ R x y.
Proof.
  induction 1 as [|a b l m E F IH]; intros []; [subst; exists b; cbn; auto|]. destruct (IH H) as (y & I & Q). exists y. cbn. auto.
Qed.
Lemma terms_eqb_In ts us t : list_eqb term_eqb ts us = true -> In t ts -> exists u, In u us /\ term_eqb t u = true.
Proof. intros E. apply list_eqb_Forall2 in E. intros I. exact (Forall2_In_l _ _ _ _ E I). Qed.
Lemma vars_eqb_In vs ws v : set_eqb var_eqb vs ws = true -> In v vs -> exists w, In w ws /\ term_eqb (TVar v) (TVar w) = true.
Proof.
  intros E I. pose proof (proj1 (set_eqb_spec _ var_eqb_equiv vs ws) E) as E0. clear E. rename E0 into E. specialize (E v).
  rewrite (In_memb _ var_eqb_equiv _ _ I) in E. symmetry in E. apply memb_In in E as (w & J & E). exists w. auto.
Qed.
Lemma occurs_eqb t f : occurs t f -> forall g, form_eqb f g = true -> exists u, occurs u g /\ term_eqb t u = true.
Proof.
  assert (L : forall f' ops ops', In f' ops -> list_eqb form_eqb ops ops' = true -> exists g', In g' ops' /\ form_eqb f' g' = true).
  { intros f' ops ops' I E. apply list_eqb_Forall2 in E. exact (Forall2_In_l _ _ _ _ E I). }
  induction 1; intros g E; destruct g; try discriminate E; cbn [form_eqb] in E.
  - apply andb_true_iff in E as [_ E]. destruct (terms_eqb_In _ _ _ E H) as (u & I & Q). exists u. split; auto. now apply O_pred.
  - apply andb_true_iff in E as [E _]. exists l. split; auto. apply O_eq_l.
  - apply andb_true_iff in E as [_ E]. exists r. split; auto. apply O_eq_r.
  - apply andb_true_iff in E as [_ E]. destruct (terms_eqb_In _ _ _ E H) as (u & I & Q). exists u. split; auto. now apply O_numfun.
  - apply andb_true_iff in E as [_ E]. destruct (L _ _ _ H E) as (g & I & Q). destruct (IHoccurs _ Q) as (u & O & Q'). exists u. split; auto. eapply O_binfun; eauto.
  - apply andb_true_iff in E as [_ E]. destruct (L _ _ _ H E) as (g & I & Q). destruct (IHoccurs _ Q) as (u & O & Q'). exists u. split; auto. eapply O_bin; eauto.
  - destruct (IHoccurs _ E) as (u & O & Q'). exists u. split; auto. now apply O_not.
  - apply andb_true_iff in E as [E1 E2]. destruct (IHoccurs _ E2) as (u & O & Q'). exists u. split; auto. now apply O_quant.
  - apply andb_true_iff in E as [E1 E2]. apply andb_true_iff in E1 as [_ E1]. destruct (vars_eqb_In _ _ _ E1 H) as (w & I & Q). exists (TVar w). split; [eapply O_bound; [exact I|reflexivity]|]. subst. exact Q.
  - apply andb_true_iff in E as [E1 E2]. destruct (IHoccurs _ E1) as (u & O & Q'). exists u. split; auto. now apply O_when_c.
  - apply andb_true_iff in E as [E1 E2]. destruct (IHoccurs _ E2) as (u & O & Q'). exists u. split; auto. now apply O_when_e.
  - apply andb_true_iff in E as [E1 E2]. destruct (IHoccurs _ E2) as (u & O & Q'). exists u. split; auto. now apply O_forall.
  - apply andb_true_iff in E as [E1 E2]. destruct (vars_eqb_In _ _ _ E1 H) as (w & I & Q). exists (TVar w). split; [eapply O_fbound; [exact I|reflexivity]|]. subst. exact Q.
Qed.
Lemma occurs_const n g f : occurs (TConst n g) f -> argument (TConst n g) f.
Proof.
  intros H. remember (TConst n g) as t eqn:E. induction H; try (now constructor); try (econstructor; eauto; fail); subst; discriminate.
Qed.
Lemma var_typed types rs v u : term_eqb (TVar v) u = true -> term_typed types rs u -> term_typed types rs (TVar v).
Proof.
  destruct u as [|w]; [discriminate|]. cbn [term_eqb]. unfold var_eqb. intros E [T1 T2]. apply andb_true_iff in E as [_ E].
  pose proof (proj1 (set_eqb_string _ _) E) as S. cbn [t_tags] in *. split.
  - intros N. apply T1. intros Z. rewrite Z in S. assert (N' : v_tags v <> []) by exact N. destruct (v_tags v) as [|g l]; [congruence|]. apply (S g). now left.
  - intros g G. apply T2. now apply S.
Qed.
Definition consts_typed (types : types_dict) (rs : list req) (f : form) : Prop :=
  forall n g, argument (TConst n g) f -> term_typed types rs (TConst n g).
Lemma form_typed_eqb types rs f g : form_eqb f g = true -> consts_typed types rs f -> form_typed types rs g -> form_typed types rs f.
Proof.
  intros E C T t O. destruct (occurs_eqb _ _ O _ E) as (u & Ou & Q). destruct t as [n k|v].
  - apply C. now apply occurs_const.
  - eapply var_typed; [exact Q|]. now apply T.
Qed.

(** * The constants of a definition are declared *)
Section Declared.
  Variable st : dstate.
  Let K (f : form) : Prop := forall n g, argument (TConst n g) f -> In (n, g) (map snd (s_constants st)).
  Local Ltac inv H := inversion H; subst; clear H.
  Lemma from_ctx_const n g : from_ctx (domain_ctx st) (TConst n g) -> In (n, g) (map snd (s_constants st)).
  Proof.
    intros [(m & G)|[(m & v & E & _)|(m & v & E & _)]]; try discriminate. cbn [domain_ctx g_const] in G.
    destruct (dict_get String.eqb m (s_constants st)) as [k|] eqn:D; [|discriminate]. injection G as G.
    apply dict_get_In in D as (m' & D & _). apply in_map_iff. exists (m', k). split; [|exact D]. destruct k. cbn [snd const_term fst] in *. congruence.
  Qed.
  Lemma terms_const ts n g : Forall (from_ctx (domain_ctx st)) ts -> In (TConst n g) ts -> In (n, g) (map snd (s_constants st)).
  Proof. intros F I. rewrite Forall_forall in F. apply from_ctx_const. auto. Qed.
  Lemma K_op k ops : Forall K ops -> K (mk_op k ops).
  Proof. intros F n g A. apply argument_mk_op in A as (f & If & A). rewrite Forall_forall in F. exact (F f If n g A). Qed.
  Lemma K_pred n ts f : Forall (from_ctx (domain_ctx st)) ts -> mk_pred n ts = Ok f -> K f.
  Proof. intros F M m g A. apply mk_pred_iff in M as [-> _]. inv A. eapply terms_const; eauto. Qed.
  Lemma K_eq l r f : from_ctx (domain_ctx st) l -> from_ctx (domain_ctx st) r -> mk_eq l r = Ok f -> K f.
  Proof. intros L R M n g A. apply mk_eq_iff in M as [-> _]. inv A; eauto using from_ctx_const. Qed.
  Lemma K_numfun n ts f : Forall (from_ctx (domain_ctx st)) ts -> mk_numfun n ts = Ok f -> K f.
  Proof.
    intros F M m g A. unfold mk_numfun in M. apply bind_Ok in M as (n' & _ & M). inv M. inv A. eapply terms_const; eauto.
  Qed.
  Ltac fin := eauto using K_pred, K_eq, K_numfun;
     try (now intros; apply K_op); try (intros; intros n' g' A; inv A; match goal with H : K ?f |- _ => now apply (H n' g') end).
  Lemma K_gd s f : gd (domain_ctx st) s = Ok f -> K f.
  Proof. apply gd_P; fin. Qed.
  Lemma K_pre s f : emptyor_pregd (domain_ctx st) s = Ok f -> K f.
  Proof. apply emptyor_pregd_P; fin. Qed.
  Lemma K_eff s f : emptyor_effect (domain_ctx st) s = Ok f -> K f.
  Proof. apply emptyor_effect_P; fin. Qed.
End Declared.
Definition uses_constant (a : action) (n : string) (g : option string) : Prop :=
  exists f, (a_pre a = Some f \/ a_eff a = Some f) /\ argument (TConst n g) f.
Lemma action_constants body st st' a n g : action_def body st = (st', Ok a) -> uses_constant a n g -> In (n, g) (map snd (s_constants st)).
Proof.
  intros H (f & F & A). apply action_def_st in H as (nm & ps & bd & vs & b & -> & P & B & M).
  apply action_body_inv in B as (x & y & -> & Bp & Be). unfold mk_action in M. apply bind_Ok in M as (n' & _ & M). injection M as <-.
  cbn [a_pre a_eff] in F. apply action_parameters_st in P as (tl & vars & _ & _ & -> & _).
  destruct F as [F|F]; injection F as <-.
  - exact (K_pre _ _ _ Bp n g A).
  - exact (K_eff _ _ _ Be n g A).
Qed.

(** * The constructor with fewer definitions *)
Definition is_var (t : term) : Prop := exists v, t = TVar v.
Lemma var_terms_typed types rs ts us : list_eqb term_eqb ts us = true -> Forall is_var ts ->
  (forall t, In t us -> term_typed types rs t) -> forall t, In t ts -> term_typed types rs t.
Proof.
  intros E V T t I. destruct (terms_eqb_In _ _ _ E I) as (u & J & Q). rewrite Forall_forall in V. destruct (V t I) as (v & ->).
  exact (var_typed _ _ _ _ Q (T u J)).
Qed.
Lemma opt_typed_eqb types rs o o' : option_eqb form_eqb o o' = true -> o' <> None ->
  (forall f, o = Some f -> consts_typed types rs f) -> opt_typed types rs o' -> o <> None /\ opt_typed types rs o.
Proof.
  destruct o as [f|], o' as [g|]; cbn; try discriminate; try congruence. intros E _ C T. split; [discriminate|].
  eapply form_typed_eqb; eauto.
Qed.
Lemma action_typed_eqb types rs a b : action_eqb a b = true -> Forall is_var (a_params a) ->
  (forall n g, uses_constant a n g -> term_typed types rs (TConst n g)) ->
  a_pre b <> None -> a_eff b <> None -> action_typed types rs b -> a_pre a <> None /\ a_eff a <> None /\ action_typed types rs a.
Proof.
  intros E V C P F (T1 & T2 & T3). unfold action_eqb in E. rewrite !andb_true_iff in E. destruct E as (((_ & E1) & E2) & E3).
  destruct (opt_typed_eqb types rs _ _ E2 P) as [P' T2']; auto.
  { intros f Hf n g A. apply C. exists f. auto. }
  destruct (opt_typed_eqb types rs _ _ E3 F) as [F' T3']; auto.
  { intros f Hf n g A. apply C. exists f. auto. }
  split; [exact P'|]. split; [exact F'|]. split; [|auto]. exact (var_terms_typed _ _ _ _ E1 V T1).
Qed.

Lemma mk_domain_fewer n rs ty cs ps dps dps' fs acts acts' d :
  mk_domain n rs ty cs ps dps fs acts = Ok d -> incl acts' acts -> incl dps' dps ->
  Forall (fun a => Forall is_var (a_params a)) acts -> Forall (fun x => Forall is_var (dp_terms x)) dps ->
  (forall a m g, In a acts -> uses_constant a m g -> In (m, g) cs) -> dedup const_eqb cs = cs ->
  exists d', mk_domain n rs ty cs ps dps' fs acts' = Ok d' /\ same_declarations d d' /\
    d_actions d' = dedup action_eqb acts' /\ d_derived d' = dedup derived_eqb dps'.
Proof.
  intros H Ia Id Va Vd U ND.
  assert (DB : domain_built d) by (do 8 eexists; exact H).
  destruct (domain_built_types d DB) as (N1 & N2 & N3).
  pose proof H as H'. apply mk_domain_inv in H' as (En & Ep & Er & Et & Ef & Ec & Eps & Ed & Efs & Ea & K).
  apply (domain_check_Ok d N3) in K as (K1 & K2 & K3 & K4).
  set (d' := mkDomain (d_name d) (d_reqs d) (d_types d) (d_constants d) (d_predicates d) (dedup derived_eqb dps') (d_functions d) (dedup action_eqb acts')).
  assert (C : domain_check_consistency d' = Ok tt).
  { apply domain_check_Ok; [exact N3|]. unfold domain_consistent, d'. cbn [d_types d_reqs d_constants d_predicates d_actions d_derived].
    split; [exact K1|]. split; [exact K2|]. split.
    - intros a A. assert (A' : In a acts) by (apply Ia; eapply dedup_In; eauto).
      assert (M : memb action_eqb a (d_actions d) = true).
      { rewrite Ea, (memb_dedup _ action_eqb_equiv). now apply (In_memb _ action_eqb_equiv). }
      apply memb_In in M as (b & B & E). destruct (K3 b B) as (B1 & B2 & B3).
      rewrite Forall_forall in Va. refine (action_typed_eqb _ _ _ _ E (Va a A') _ B1 B2 B3).
      intros m g Q. apply (K1 (m, g)). rewrite Ec, ND. exact (U a m g A' Q).
    - intros x t g X T G. assert (X' : In x dps) by (apply Id; eapply dedup_In; eauto).
      assert (M : memb derived_eqb x (d_derived d) = true).
      { rewrite Ed, (memb_dedup _ derived_eqb_equiv). now apply (In_memb _ derived_eqb_equiv). }
      apply memb_In in M as (y & Y & E). unfold derived_eqb in E. apply andb_true_iff in E as [E _]. cbn [dp_pred form_eqb] in E.
      apply andb_true_iff in E as [_ E]. destruct (terms_eqb_In _ _ _ E T) as (u & J & Q).
      rewrite Forall_forall in Vd. pose proof (Vd x X') as V. rewrite Forall_forall in V. destruct (V t T) as (v & ->).
      destruct u as [|w]; [discriminate|]. cbn [term_eqb] in Q. unfold var_eqb in Q. apply andb_true_iff in Q as [_ Q].
      apply (K4 y (TVar w) g Y J). cbn [t_tags] in *. now apply (proj1 (set_eqb_string _ _) Q). }
  exists d'. split; [|repeat split]. unfold mk_domain. rewrite Ep, Et, Ef. cbn [bind].
  rewrite <- Er, <- Ec, <- Eps, <- Efs, <- En. change ((domain_check_consistency d' ;; Ok d') = Ok d'). now rewrite C.
Qed.

(** * Texts with fewer definitions *)
Lemma header_constants rq ty cs ps st1 r t c p : header rq ty cs ps init_dstate = (st1, Ok (r, t, c, p)) ->
  opt_list c = map snd (s_constants st1) /\ dedup const_eqb (opt_list c) = opt_list c.
Proof.
  intros H. pose proof (header_state _ _ _ _ _ _ _ _ _ H) as (_ & E & _). rewrite E. clear E.
  unfold header in H. apply bindM_Ok in H as (s1 & r' & R & H). apply bindM_Ok in H as (s2 & t' & T & H).
  apply bindM_Ok in H as (s3 & c' & C & H). apply bindM_Ok in H as (s4 & p' & P & H). apply ret_Ok in H as [_ H].
  inversion H; subst. clear H. destruct cs as [l|]; cbn [optM] in C.
  - apply bindM_Ok in C as (s & a & C & C'). apply ret_Ok in C' as [_ C']. inversion C'; subst.
    apply constants_st in C as (d & D & _ & ->). rewrite D. cbn [opt_list]. split; [reflexivity|].
    apply Format_facts.objects_ok in D as [D1 D2]. apply Format_facts.objects_dedup; [exact D1|].
    eapply Forall_impl; [|exact D2]. cbn. tauto.
  - apply ret_Ok in C as [_ C]. inversion C; subst. split; reflexivity.
Qed.
Lemma legal_is_var vs : Forall is_var (map TVar vs).
Proof. induction vs; cbn; constructor; auto. now exists a. Qed.
Lemma action_is_var body st st' a : action_def body st = (st', Ok a) -> Forall is_var (a_params a).
Proof.
  intros H. apply action_def_st in H as (n & ps & bd & vs & b & _ & P & _ & M).
  apply action_parameters_st in P as (tl & vars & _ & _ & _ & ->). unfold mk_action in M. apply bind_Ok in M as (n' & _ & M).
  injection M as <-. cbn [a_params]. rewrite <- map_map. apply legal_is_var.
Qed.
Lemma derived_is_var body st st' x : derived_def body st = (st', Ok x) -> Forall is_var (dp_terms x).
Proof.
  intros H. destruct body as [|h [|c [|]]]; try discriminate.
  unfold derived_def, bindM, ret, reads in H. destruct (atomic_formula_skeleton h) as [head|] eqn:A; [|discriminate].
  destruct (gd _ c) as [cond|]; [|discriminate]. apply (f_equal snd) in H. cbn [snd] in H. unfold derived_callback in H.
  destruct (dict_get String.eqb (fst head) (s_predicates st)) as [def|] eqn:Dg; [|discriminate].
  apply bind_Ok in H as ([] & L & H). apply bind_Ok in H as (m & M & H). apply bind_Ok in H as (p & U & H).
  apply bind_Ok in H as (cond' & C & H). simpl in U. apply bind_Ok in U as (ts' & T & U). apply mk_pred_Ok in U. subst p.
  inversion H; subst x. cbn [dp_terms]. apply mapR_Ok in T.
  assert (V : Forall is_var (snd head)).
  { unfold atomic_formula_skeleton in A. destruct h as [|[|[[]|] vs]]; try discriminate. apply bind_Ok in A as (tl & _ & A).
    apply bind_Ok in A as (vars & _ & A). apply bind_Ok in A as (q & Q & A). apply mk_pred_Ok in Q. subst q. injection A as <-.
    cbn [snd]. apply legal_is_var. }
  clear - T V. induction T as [|t u ts us E T IH]; constructor.
  - inversion V as [|? ? (v & ->) _]; subst. cbn in E. destruct (dict_get String.eqb (v_name v) m).
    + apply bind_Ok in E as (w & W & E). injection E as <-. now exists w.
    + injection E as <-. now exists v.
  - apply IH. now inversion V.
Qed.
Lemma read_facts st p y : read st p = Ok y ->
  match y with
  | inl a => Forall is_var (a_params a) /\ forall n g, uses_constant a n g -> In (n, g) (map snd (s_constants st))
  | inr x => Forall is_var (dp_terms x)
  end.
Proof.
  assert (G : forall x st' s1, structure_def x st' = (s1, Ok y) -> s_constants st' = s_constants st ->
    match y with
    | inl a => Forall is_var (a_params a) /\ forall n g, uses_constant a n g -> In (n, g) (map snd (s_constants st))
    | inr x => Forall is_var (dp_terms x)
    end).
  { intros x st' s1 H E. apply structure_def_st in H as [(b & a & _ & -> & H)|(b & a & _ & -> & H)].
    - split; [eapply action_is_var; eauto|]. rewrite <- E. intros n g. eapply action_constants; eauto.
    - eapply derived_is_var; eauto. }
  destruct p as [x|o x]; cbn [read].
  - destruct (structure_def x st) as [s1 r] eqn:E. cbn [snd]. intros ->. eapply G; eauto.
  - destruct (structure_def x (ctx_state st o)) as [s1 r] eqn:E. cbn [snd]. intros ->. eapply G; eauto.
    destruct o as [z|]; [|reflexivity]. cbn [ctx_state]. now destruct (structure_base z st) as [[Q _] _].
Qed.
Lemma read_list st l l' ys : map (read st) l = map Ok ys -> incl l' l -> exists ys', map (read st) l' = map Ok ys' /\ incl ys' ys.
Proof.
  intros H. induction l' as [|p l' IH]; intros I; [exists []; split; [reflexivity|intros x []]|].
  destruct IH as (ys' & E & J); [intros q Q; apply I; now right|].
  assert (X : In (read st p) (map Ok ys)) by (rewrite <- H; apply in_map, I; now left).
  apply in_map_iff in X as (y & Y & Iy). exists (y :: ys'). split; [cbn [map]; now rewrite <- Y, E|].
  intros z [<-|Z]; auto.
Qed.
Lemma fewer_definitions s s' n rq ty cs ps fs defs defs' d :
  Forall definition defs -> Forall definition defs' ->
  domain_text s n (declarations rq ty cs ps fs ++ defs) -> domain_text s' n (declarations rq ty cs ps fs ++ defs') ->
  (forall p, placed p defs' -> placed p defs) -> parse_domain_fresh s = Ok d ->
  exists d', parse_domain_fresh s' = Ok d' /\ same_declarations d d' /\
    (forall a, has_action d' a -> has_action d a) /\ (forall a, has_derived d' a -> has_derived d a) /\
    ((forall p, placed p defs -> placed p defs') -> domain_eqb d' d = true).
Proof.
  intros F F' T T' I H.
  apply (accepted_iff _ _ _ _ _ _ _ _ T F) in H as (st1 & r & t & c & p & f & ys & Hh & Hf & Hy & Hd).
  assert (J : incl (places None defs') (places None defs)).
  { intros q Q. apply placed_places; [exact F|]. apply I. exact (places_placed defs' F' [] None (la_none _ (Forall_nil _)) q Q). }
  destruct (read_list _ _ _ _ Hy J) as (ys' & Hy' & Iy).
  assert (Ia : incl (actions_in ys') (actions_in ys)) by (intros a A; apply actions_in_In; apply actions_in_In in A; auto).
  assert (Id : incl (derived_in ys') (derived_in ys)) by (intros a A; apply derived_in_In; apply derived_in_In in A; auto).
  destruct (header_constants _ _ _ _ _ _ _ _ _ Hh) as [C1 C2].
  destruct (mk_domain_fewer _ _ _ _ _ _ _ _ _ _ _ Hd Ia Id) as (d' & D & S & E1 & E2); auto.
  { apply Forall_forall. intros a A. apply actions_in_In in A. apply (map_Ok_In _ _ _ _ Hy) in A as (q & _ & R).
    apply read_facts in R. tauto. }
  { apply Forall_forall. intros a A. apply derived_in_In in A. apply (map_Ok_In _ _ _ _ Hy) in A as (q & _ & R).
    apply read_facts in R. exact R. }
  { intros a m g A Q. apply actions_in_In in A. apply (map_Ok_In _ _ _ _ Hy) in A as (q & _ & R).
    apply read_facts in R as [_ R]. rewrite C1. auto. }
  pose proof Hd as Hd'. apply mk_domain_inv in Hd' as (_ & _ & _ & _ & _ & _ & _ & Ed & _ & Ea & _).
  assert (MA : forall l m, incl l m -> forall a, memb action_eqb a l = true -> memb action_eqb a m = true).
  { intros l m L a A. apply memb_In in A as (b & B & E). apply memb_In. exists b. auto. }
  assert (MD : forall l m, incl l m -> forall a, memb derived_eqb a l = true -> memb derived_eqb a m = true).
  { intros l m L a A. apply memb_In in A as (b & B & E). apply memb_In. exists b. auto. }
  exists d'. split; [|split; [exact S|split; [|split]]].
  - apply (accepted_iff _ _ _ _ _ _ _ _ T' F'). exists st1, r, t, c, p, f, ys'. auto.
  - unfold has_action. intros a. rewrite E1, Ea, !(memb_dedup _ action_eqb_equiv). now apply MA.
  - unfold has_derived. intros a. rewrite E2, Ed, !(memb_dedup _ derived_eqb_equiv). now apply MD.
  - intros I'. assert (J' : incl (places None defs) (places None defs')).
    { intros q Q. apply placed_places; [exact F'|]. apply I'. exact (places_placed defs F [] None (la_none _ (Forall_nil _)) q Q). }
    assert (Iy' : incl ys ys').
    { intros y Y. apply (map_Ok_In _ _ _ _ Hy) in Y as (q & Q & R). apply (map_Ok_In _ _ _ _ Hy'). exists q. auto. }
    assert (Ia' : incl (actions_in ys) (actions_in ys')) by (intros a A; apply actions_in_In; apply actions_in_In in A; auto).
    assert (Id' : incl (derived_in ys) (derived_in ys')) by (intros a A; apply derived_in_In; apply derived_in_In in A; auto).
    assert (QA : set_eqb action_eqb (d_actions d') (d_actions d) = true).
    { apply (set_eqb_spec _ action_eqb_equiv). intros a. rewrite E1, Ea, !(memb_dedup _ action_eqb_equiv). apply eq_true_iff_eq. split; apply MA; auto. }
    assert (QD : set_eqb derived_eqb (d_derived d') (d_derived d) = true).
    { apply (set_eqb_spec _ derived_eqb_equiv). intros a. rewrite E2, Ed, !(memb_dedup _ derived_eqb_equiv). apply eq_true_iff_eq. split; apply MD; auto. }
    assert (RF : domain_eqb d d = true).
    { apply domain_eqb_refl. eapply mk_domain_dicts; [exact Hd|]. unfold opt_fun in Hf. destruct fs as [l|].
      - apply bind_Ok in Hf as (f' & Hf & Q). injection Q as <-. cbn [opt_list]. now apply FormatDomain_facts.functions_ok in Hf.
      - injection Hf as <-. constructor. }
    destruct S as (S1 & S2 & S3 & S4 & S5 & S6). unfold domain_eqb in *. rewrite S1, S2, S3, S4, S5, S6, QA, QD.
    rewrite !andb_true_iff in *. tauto.
Qed.
