(** Facts: what a text holds is made through the constructors (C69). *)
From Coq Require Import String List Bool.
From Verif Require Import Py Names Reqs Logic Validation Core Lexer TypedList UpdateTags Parser Built Spec_Core Spec Spec_Parse Spec_Print Spec_Domain
  Spec_Copy Py_facts Logic_facts Ops_facts Built_facts Names_facts Validation_facts Order_facts CoreEq_facts Core_facts Derived_facts2
  GD_facts Domain_facts Problem_facts Loose_facts Format_facts FormatDomain_facts Copy_facts.
Import ListNotations.
Open Scope string_scope.
Open Scope list_scope.

Lemma remake d : domain_built d ->
  mk_domain (d_name d) (d_reqs d) (Some (d_types d)) (d_constants d) (d_predicates d) (d_derived d) (d_functions d) (d_actions d) = Ok d.
Proof.
  intros (n & rs & ty & cs & ps & dps & fs & acts & M).
  apply mk_domain_inv in M as (N & PN & R & T & TC & C & P & DP & FS & A & K).
  unfold mk_domain. rewrite N, PN, R, C, P, DP, FS, A. cbn [bind].
  rewrite (dedup_id _ req_eqb_equiv) by apply dedup_NoDupE, req_eqb_equiv.
  rewrite (mk_types_again _ _ _ T). cbn [bind]. rewrite TC. cbn [bind].
  rewrite (dedup_id _ const_eqb_equiv) by apply dedup_NoDupE, const_eqb_equiv.
  rewrite (dedup_id _ atom_eqb_equiv) by apply dedup_NoDupE, atom_eqb_equiv.
  rewrite (dedup_id _ derived_eqb_equiv) by apply dedup_NoDupE, derived_eqb_equiv.
  rewrite (dedup_id _ action_eqb_equiv) by apply dedup_NoDupE, action_eqb_equiv.
  destruct d as [dn dr dt dc dp dd df da]; cbn [d_name d_reqs d_types d_constants d_predicates d_derived d_functions d_actions] in *.
  subst. match goal with |- bind ?x _ = _ => assert (E : x = Ok tt) by exact K; rewrite E end. reflexivity.
Qed.
Lemma made_domain_fields d : domain_built d -> Forall made_const (d_constants d) ->
  Forall (fun p => made (FPred (fst p) (snd p))) (d_predicates d) -> Forall made_derived (d_derived d) ->
  Forall (fun kv => made (FNumFun (fst (fst kv)) (snd (fst kv)))) (d_functions d) -> Forall made_action (d_actions d) ->
  made_domain d.
Proof. intros H. intros. apply remake in H. do 8 eexists. split; [exact H|]. auto. Qed.

Lemma legal_made_var v : legal_var v -> made_var v.
Proof.
  intros (L & T & N). exists (v_name v), (CSet (v_tags v)). apply mk_var_Ok. cbn [coll_items coll_ok].
  split; auto. destruct v as [n g]. cbn [v_name v_tags] in *. f_equal. symmetry. apply dedup_id; [apply string_eqb_equiv|].
  now apply NoDupE_string.
Qed.
Lemma legal_made_const n g : legal_name n -> (forall t, g = Some t -> legal_type t) -> made_term (TConst n g).
Proof. intros L T. exists n, g. apply mk_const_Ok. split; auto. split; auto. destruct g; auto. Qed.
Lemma repeats_consistent vs : repeats_same vs -> name_consistent (map TVar vs).
Proof.
  intros R t u T U E. apply in_map_iff in T as (v & <- & T). apply in_map_iff in U as (w & <- & U). cbn in *. now apply R.
Qed.
Lemma legal_made_vars vs : Forall legal_var vs -> Forall made_term (map TVar vs).
Proof. intros F. apply Forall_map. eapply Forall_impl; [|exact F]. intros v. apply legal_made_var. Qed.
Lemma mk_vars_made l vs : mk_vars l = Ok vs -> Forall made_var vs.
Proof.
  unfold mk_vars. intros H. apply mapR_Ok in H. induction H as [|a b l vs E H IH]; constructor; auto. now exists (fst a), (CSet (snd a)).
Qed.

(** ** the terms of a formula *)
Fixpoint hm (f : form) : Prop :=
  match f with
  | FPred _ ts | FNumFun _ ts => Forall made_term ts
  | FEq l r => made_term l /\ made_term r
  | FNumVal _ => True
  | FBinFun _ ops | FBin _ ops => fold_right (fun g p => hm g /\ p) True ops
  | FNot g => hm g
  | FQuant _ vs c => Forall made_var vs /\ hm c
  | FWhen c e => hm c /\ hm e
  | FForall vs e => Forall made_var vs /\ hm e
  end.
Lemma hm_mk_op c ops : Forall hm ops -> hm (mk_op c ops).
Proof.
  apply (mk_op_again hm).
  - intros f l O. apply ops_if_raw in O. subst. destruct c; cbn [hm raw_node]; now rewrite fold_and_Forall.
  - intros l _ F. destruct c; cbn [hm raw_node]; now rewrite fold_and_Forall.
Qed.
Lemma replace_made m t t' : made_term t -> replace_term m t = Ok t' -> made_term t'.
Proof.
  destruct t as [n g|v]; cbn [replace_term]; intros M H.
  - inversion H; subst; auto.
  - destruct (dict_get String.eqb (v_name v) m) as [tags|]; [|inversion H; subst; auto].
    apply bind_Ok in H as (v' & V & H). inversion H; subst. now exists (v_name v), (CSet tags).
Qed.
Lemma replaces_made m ts ts' : Forall made_term ts -> mapR (replace_term m) ts = Ok ts' -> Forall made_term ts'.
Proof.
  intros F H. apply mapR_Ok in H. induction H; inversion F; subst; constructor; eauto using replace_made.
Qed.
Lemma update_made f : hm f -> forall m f', update_type_tags m f = Ok f' -> made f'.
Proof.
  assert (L : forall ops, Forall (fun f => hm f -> forall m f', update_type_tags m f = Ok f' -> made f') ops -> Forall hm ops ->
    forall m ops', mapR (update_type_tags m) ops = Ok ops' -> Forall made ops').
  { intros ops F G m ops' M. apply mapR_Ok in M. induction M as [|a b l l' E M IH]; inversion F; inversion G; subst; constructor; eauto. }
  induction f using form_ind'; cbn [hm]; rewrite ?fold_and_Forall; intros G m f' U; cbn in U; try discriminate.
  - apply bind_Ok in U as (ts' & R & U). eapply Y_pred; [|eauto]. eapply replaces_made; eauto.
  - destruct G as [G1 G2]. apply bind_Ok in U as (l2 & A & U). apply bind_Ok in U as (r2 & B & U).
    apply (Y_eq l2 r2); auto; [exact (replace_made _ _ _ G1 A)|exact (replace_made _ _ _ G2 B)].
  - apply bind_Ok in U as (ts' & R & U). eapply Y_numfun; [|eauto]. eapply replaces_made; eauto.
  - injection U as <-. apply Y_numval.
  - apply bind_Ok in U as (ops' & M & U). injection U as <-. apply Y_binfun. eauto.
  - apply bind_Ok in U as (ops' & M & U). injection U as <-. apply Y_bin. eauto.
  - apply bind_Ok in U as (g' & M & U). injection U as <-. apply Y_not. eauto.
  - destruct G as [G1 G2]. apply bind_Ok in U as (g' & M & U). injection U as <-. apply Y_quant; eauto.
Qed.

(** ** the formulas of a text *)
Definition ctx_made (c : gctx) : Prop := forall t, from_ctx c t -> made_term t.
Lemma ctx_terms c ts : ctx_made c -> Forall (from_ctx c) ts -> Forall made_term ts.
Proof. intros H F. eapply Forall_impl; [|exact F]. exact H. Qed.
Section Ctx.
  Variable c : gctx.
  Hypothesis H : ctx_made c.
  Lemma gd_made s f : gd c s = Ok f -> made f.
  Proof.
    apply (gd_P c made); intros; eauto using Y_pred, Y_eq, Y_numfun, Y_numval, Y_binfun, Y_bin, Y_not, Y_quant, Y_when, Y_forall, ctx_terms, mk_vars_made.
  Qed.
  Lemma gd_hm s f : gd c s = Ok f -> hm f.
  Proof.
    apply (gd_P c hm); intros; cbn [hm mk_not mk_quant]; auto.
    - apply mk_pred_iff in H1 as (-> & _). cbn. now apply (ctx_terms c).
    - apply mk_eq_iff in H2 as (-> & _). cbn. auto.
    - unfold mk_numfun in H1. apply bind_Ok in H1 as (n' & _ & H1). inversion H1. cbn. now apply (ctx_terms c).
    - now apply hm_mk_op.
    - now apply hm_mk_op.
    - split; auto. apply Forall_dedup_sub. eapply mk_vars_made; eauto.
  Qed.
  Lemma pregd_made s f : emptyor_pregd c s = Ok f -> made f.
  Proof.
    apply (emptyor_pregd_P c made); intros; eauto using Y_pred, Y_eq, Y_numfun, Y_numval, Y_binfun, Y_bin, Y_not, Y_quant, Y_when, Y_forall, ctx_terms, mk_vars_made.
  Qed.
  Lemma effect_made s f : emptyor_effect c s = Ok f -> made f.
  Proof.
    apply (emptyor_effect_P c made); intros; eauto using Y_pred, Y_eq, Y_numfun, Y_numval, Y_binfun, Y_bin, Y_not, Y_quant, Y_when, Y_forall, ctx_terms, mk_vars_made.
  Qed.
End Ctx.

(** ** domains *)
Lemma st_ctx d st : st_for d st -> ctx_made (domain_ctx st).
Proof.
  intros W t [(n & K)|[(n & v & -> & G)|(n & v & -> & _ & V)]].
  - cbn in K. destruct (dict_get String.eqb n (s_constants st)) as [[m g]|] eqn:E; [|discriminate]. inversion K; subst.
    apply dict_get_In in E as (k & I & _). pose proof (sf_const_ok _ _ W) as C. rewrite Forall_forall in C.
    apply C in I as (_ & L & T). cbn in *. now apply legal_made_const.
  - apply dict_get_In in G as (k & I & _). apply legal_made_var. pose proof (sf_params_ok _ _ W) as (C & _).
    rewrite Forall_forall in C. apply C. apply in_map_iff. now exists (k, v).
  - now exists n, (CList []).
Qed.
Lemma action_made d l st st' a : st_for d st -> action_def l st = (st', Ok a) -> made_action a.
Proof.
  intros W H. pose proof (action_for _ _ _ _ _ W H) as W'. apply action_def_st in H as (n & ps & body & vs & b & _ & P & B & A).
  pose proof (st_ctx _ _ W') as C. apply action_parameters_ok in P as (qs & E & -> & _ & _ & V).
  exists n, (map (fun kv => TVar (snd kv)) qs), (Some (fst b)), (Some (snd b)). split; auto. split.
  - destruct V as (V & _). apply Forall_map. rewrite Forall_map in V. eapply Forall_impl; [|exact V]. intros kv. apply legal_made_var.
  - unfold action_body in B. destruct body as [|k1 [|x [|k2 [|y [|]]]]]; try discriminate;
      try (destruct (is_kw _ _); [apply bind_Ok in B as (? & _ & B); discriminate|];
           destruct (is_kw _ _); [apply bind_Ok in B as (? & _ & B); discriminate|discriminate]).
    destruct (is_kw _ _ && is_kw _ _); [|discriminate].
    apply bind_Ok in B as (p & P & B). apply bind_Ok in B as (e & Q & B). inversion B; subst b. cbn [fst snd].
    split; intros f [= <-]; [eapply pregd_made|eapply effect_made]; eauto.
Qed.
Lemma derived_made d l st st' x : st_for d st -> derived_def l st = (st', Ok x) -> made_derived x.
Proof.
  intros W H. unfold derived_def in H. destruct l as [|h [|y [|]]]; try (apply ret_Ok in H as [_ H]; discriminate).
  apply bindM_Ok in H as (st1 & hd & A & H). apply ret_Ok in A as [-> A].
  apply bindM_Ok in H as (st2 & c & G & H). apply reads_Ok in G as [-> G]. apply reads_Ok in H as [-> H].
  apply (gd_hm _ (st_ctx _ _ W)) in G. apply skeleton_ok in A as (vs & E & L & V & R & _).
  unfold derived_callback in H. destruct (dict_get _ _ _) as [def|]; [|discriminate].
  apply bind_Ok in H as ([] & _ & H). apply bind_Ok in H as (m & _ & H). apply bind_Ok in H as (p & P & H).
  apply bind_Ok in H as (c' & Q & H). apply update_made in P; [|cbn [hm]; rewrite E; now apply legal_made_vars].
  apply update_made in Q; auto. destruct p; try discriminate. inversion H; subst. now split.
Qed.
Lemma parsed_domain_made s d : parse_domain_fresh s = Ok d -> made_domain d.
Proof.
  intros H. apply parsed_domain_parts in H as (n & l & _ & [P1 P2 P3 P4 P5 [P6 P7] P8 P9]).
  apply made_domain_fields; auto; apply Forall_forall.
  - intros [m g] I. apply P4 in I as [L T]. now apply legal_made_const.
  - intros [m ts] I. rewrite Forall_forall in P5. apply P5 in I as (vs & E & L & V & R & _). cbn [fst snd] in *. subst ts.
    apply (Y_pred m (map TVar vs)); [now apply legal_made_vars|]. apply mk_pred_iff. split; auto. split; auto. now apply repeats_consistent.
  - intros x I. apply P9 in I as (b & s1 & s2 & _ & D & W). eapply derived_made; eauto.
  - intros [[m ts] v] I. rewrite Forall_forall in P7. apply P7 in I as ((vs & E & L & (V & _ & R) & _) & _). cbn [fst snd] in *. subst ts.
    apply (Y_numfun m (map TVar vs)); [now apply legal_made_vars|]. unfold mk_numfun.
    now rewrite (proj2 (parse_function_Ok' m m)).
  - intros a I. apply P8 in I as (b & s1 & s2 & _ & D & W). eapply action_made; eauto.
Qed.

(** ** problems *)
Lemma consts_made ns ts : mapR (fun x => mk_const x None) ns = Ok ts -> Forall made_term ts.
Proof.
  intros H. apply mapR_Ok in H. induction H as [|n t ns ts E H IH]; constructor; auto.
  pose proof E as E'. apply mk_const_Ok in E as (-> & _). cbn. eauto.
Qed.
Lemma basic_made s f : basic_function_term s = Ok f -> made f.
Proof.
  destruct s as [[]|[|[[]|] l]]; cbn; try discriminate; intros H.
  - eapply Y_numfun; [|eauto]. constructor.
  - apply bind_Ok in H as (ns & _ & H). apply bind_Ok in H as (ts & T & H). eapply Y_numfun; [|eauto]. eapply consts_made; eauto.
Qed.
Lemma metric_made s : forall f, metric_f_exp s = Ok f -> made f.
Proof.
  induction s as [t|l IH] using sexp_ind'; intros f.
  - destruct t; try (apply basic_made). cbn. intros [= <-]. apply Y_numval.
  - destruct l as [|[[]|] args]; try (apply basic_made). cbn [metric_f_exp]. inversion IH as [|? ? _ IHa]; subst.
    intros H. destruct (arith_op s (length args)) as [k|] eqn:A; [|discriminate].
    apply bind_Ok in H as (ops & M & H). injection H as <-. apply Y_binfun. eapply mapR_Forall'; eauto.
Qed.
Lemma atomic_made objs s f : Forall (fun kv : string * const => made_const (snd kv)) objs ->
  atomic_formula_name objs s = Ok f -> made f.
Proof.
  intros O. destruct s as [[]|[|[[]|] l]]; cbn; try discriminate; intros H.
  apply bind_Ok in H as (ns & _ & H). apply bind_Ok in H as (ts & T & H). eapply Y_pred; [|eauto].
  apply mapR_Ok in T. clear H. induction T as [|n t ns ts E H IH]; constructor; auto.
  destruct (dict_get String.eqb n objs) as [k|] eqn:G.
  - inversion E; subst. apply dict_get_In in G as (m & I & _). rewrite Forall_forall in O. now apply O in I.
  - pose proof E as E'. apply mk_const_Ok in E as (-> & _). cbn. eauto.
Qed.
Lemma init_made objs s f : Forall (fun kv : string * const => made_const (snd kv)) objs -> init_el objs s = Ok f -> made f.
Proof.
  intros O. unfold init_el. destruct s as [|[|[[]|] args]]; try discriminate.
  - destruct (String.eqb s "not"); [|now apply atomic_made]. destruct args as [|x [|]]; try discriminate.
    intros H. apply bind_Ok in H as (g & G & H). injection H as <-. apply Y_not. eapply atomic_made; eauto.
  - destruct args as [|g [|[[]|] [|]]]; try discriminate. destruct (String.eqb s "="); [|discriminate].
    intros H. apply bind_Ok in H as (h & G & H). apply bind_Ok in H as (v & _ & H). injection H as <-.
    apply Y_binfun. constructor; [eapply basic_made; eauto|]. constructor; [apply Y_numval|constructor].
Qed.
Lemma parsed_problem_made s p : parse_problem s = Ok p -> made_problem p.
Proof.
  intros P. apply parse_problem_inv in P as (n & dn & l & T & R).
  apply problem_rule_inv in R as (o1 & o2 & inits & g & o5 & rs & os & init & goal & m & _ & Rq & Os & I & G & Me & M).
  assert (O : Forall (fun kv : string * const => made_const (snd kv)) (match os with Some d => d | None => [] end)).
  { destruct o2 as [l2|]; cbn in Os.
    - apply bind_Ok in Os as (d & D & Os). injection Os as <-. apply objects_ok in D as (_ & F). eapply Forall_impl; [|exact F].
      intros [k [a b]] (_ & L & X). cbn in *. now apply legal_made_const.
    - injection Os as <-. constructor. }
  eapply YP_new; [| | | | |exact M].
  - discriminate.
  - destruct os; [now apply Forall_map|constructor].
  - apply mapR_Ok in I. clear - I O. induction I; constructor; eauto using init_made.
  - intros f [= <-]. eapply gd_made; [|exact G]. intros t [(k & K)|[(k & v & -> & D)|(k & v & -> & _ & V)]].
    + cbn in K. pose proof K as K'. apply mk_const_Ok in K as (-> & _). cbn. eauto.
    + discriminate.
    + now exists k, (CList []).
  - intros x ->. destruct o5 as [l5|]; [|discriminate]. cbn in Me. apply bind_Ok in Me as (x' & Me & E). injection E as ->.
    unfold metric_spec in Me. destruct l5 as [|[[]|] [|e [|]]]; try discriminate.
    destruct (memb _ _ _); [|discriminate]. apply bind_Ok in Me as (f & F & Me). exists f, s0. split; auto. eapply metric_made; eauto.
Qed.
