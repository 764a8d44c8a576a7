(** What the parsers return, in the terms of Spec_Problem.v and Spec_Domain.v. *)
From Coq Require Import String List Bool Arith Lia ZArith.
From Verif Require Import Py Names Reqs Logic Validation Core Lexer TypedList UpdateTags Parser.
From Verif Require Import Built Spec Spec_Core Spec_Parse Spec_Print Spec_Numbers Spec_Text Spec_Problem Spec_Domain Spec_Format.
From Verif Require Import Py_facts Logic_facts Ops_facts Built_facts Names_facts Order_facts CoreEq_facts Validation_facts
  Core_facts TypedList_facts Parse_facts GD_facts Derived_facts Domain_facts Derived_facts2 Feature_facts Problem_facts
  Number_facts MeaningText_facts Loose_facts.
Import ListNotations.
Open Scope string_scope.
Open Scope list_scope.

(** ** lists of variables *)
Fixpoint ul (vs : list var) : Prop :=
  match vs with
  | [] => True
  | v :: r => (v_tags v = [] -> Forall (fun w => v_tags w = []) r) /\ ul r
  end.
Lemma ul_spec vs : ul vs <-> untyped_last vs.
Proof.
  split.
  - induction vs as [|v r IH]; intros H.
    + exists [], []. auto.
    + destruct H as [A B]. destruct (v_tags v) eqn:T.
      * exists [], (v :: r). repeat split; auto.
      * destruct (IH B) as (a & b & -> & C & D). exists (v :: a), b. repeat split; auto. constructor; auto.
        congruence.
  - intros (a & b & -> & A & B). induction A as [|v a T A IH]; cbn [app].
    + induction B; cbn; auto.
    + split; auto. intros E. congruence.
Qed.
Lemma ul_dedup vs : forall seen, ul vs -> ul (dedup_from var_eqb seen vs).
Proof.
  induction vs as [|v r IH]; intros seen H; cbn; auto. destruct H as [A B].
  destruct (memb var_eqb v seen); auto. split; auto. intros T. specialize (A T).
  apply Forall_forall. intros w W. rewrite Forall_forall in A. apply A.
  eapply dedup_from_In; eauto.
Qed.
Lemma written_types_ne l groups tail : written_vars l groups tail -> Forall (fun g => snd g <> []) groups.
Proof.
  induction 1 as [|items t gs l groups tail N T W IH]; constructor; auto.
  destruct T as [(g & _ & ->)|[T _]]; [discriminate|exact T].
Qed.
Lemma dedup_ne l : l <> [] -> dedup String.eqb l <> [].
Proof. destruct l; [congruence|]. discriminate. Qed.
Lemma parsed_vars l tl vs : typed_list_variable l = Ok tl -> mk_vars tl = Ok vs -> vars_ok vs.
Proof.
  intros T M. pose proof (typed_vars_ok _ _ _ T M) as F2.
  apply typed_list_variable_iff in T as (groups & tail & W & -> & L & R).
  assert (E : vs = map (fun p => mkVar (fst p) (snd p)) (assigned groups tail)).
  { clear - F2. induction F2 as [|p v l vs [-> _] F IH]; cbn; congruence. }
  assert (I : forall v, In v vs -> In (v_name v, v_tags v) (assigned groups tail)).
  { intros v V. rewrite E in V. apply in_map_iff in V as ([n g] & <- & V). exact V. }
  split; [|split].
  - apply Forall_forall. intros v V. pose proof (I v V) as J. destruct (L _ _ J) as [L1 L2].
    split; auto. split; auto. eapply assigned_nodups; eauto.
  - unfold assigned in E. rewrite map_app in E.
    eexists _, _. split; [exact E|]. split.
    + apply Forall_forall. intros v V. apply in_map_iff in V as ([n g] & <- & V). cbn.
      apply in_flat_map in V as ((items & gs) & G & V). apply in_map_iff in V as (a & [= <- <-] & _).
      pose proof (written_types_ne _ _ _ W) as N. rewrite Forall_forall in N. apply dedup_ne, (N _ G).
    + apply Forall_forall. intros v V. apply in_map_iff in V as ([n g] & <- & V). cbn.
      now apply in_map_iff in V as (a & [= <- <-] & _).
  - intros v w V X Q. apply I in V. apply I in X. rewrite <- Q in X. now apply (R (v_name v)).
Qed.
Lemma vars_ok_dedup vs : vars_ok vs -> vars_ok (dedup var_eqb vs).
Proof.
  intros (A & B & C). split; [|split].
  - rewrite Forall_forall in *. intros v V. apply A. eapply dedup_In; eauto.
  - apply ul_spec, ul_dedup, ul_spec, B.
  - intros v w V W. apply C; eapply dedup_In; eauto.
Qed.
Lemma binder_vars l tl vs : typed_list_variable l = Ok tl -> mk_vars tl = Ok vs -> vars_ok (dedup var_eqb vs).
Proof. intros. eapply vars_ok_dedup, parsed_vars; eauto. Qed.

(** ** constants and objects *)
Lemma objects_ok l d : objects_section l = Ok d ->
  NoDup (map fst d) /\ Forall (fun kv => fst (snd kv) = fst kv /\ legal_name (fst (snd kv))
     /\ (forall t, snd (snd kv) = Some t -> legal_type t)) d.
Proof.
  unfold objects_section. intros H. apply bind_Ok in H as (tl & _ & H). unfold constants_by_name in H.
  apply bind_Ok in H as (cs & M & H). injection H as <-. split.
  - apply NoDupE_string. apply dict_of_list_NoDupE, string_eqb_equiv.
  - apply dict_of_list_Forall. apply mapR_Ok in M. induction M as [|p x tl cs E M IH]; constructor; auto.
    apply bind_Ok in E as (k & K & E). injection E as <-. apply mk_const_Ok in K as (-> & L & T). cbn.
    split; auto. split; auto. intros t X. rewrite X in T. exact T.
Qed.
Lemma objects_dedup d : NoDup (map fst d) -> Forall (fun kv : string * const => fst (snd kv) = fst kv) d ->
  dedup const_eqb (map snd d) = map snd d.
Proof.
  intros N F. apply dedup_id; [apply const_eqb_equiv|].
  induction d as [|[k c] d IH]; cbn; [constructor|]. inversion N; subst. inversion F as [|? ? E F']; subst. cbn in E.
  constructor; auto. apply memb_false. intros x X. apply in_map_iff in X as ([k' c'] & <- & X). cbn.
  unfold const_eqb. destruct (String.eqb_spec (fst c) (fst c')) as [Q|]; auto. exfalso.
  rewrite Forall_forall in F'. pose proof (F' _ X) as E'. cbn in E'. apply H1. apply in_map_iff.
  exists (k', c'). split; auto. cbn. congruence.
Qed.

(** ** requirements *)
Lemma require_keys_fluents l ks : require_keys l = Ok ks -> ~ In OBJECT_FLUENTS ks.
Proof.
  unfold require_keys. destruct l as [|s l]; [discriminate|]. intros H. apply of_opt_Ok' in H.
  revert H. generalize (s :: l). clear. intros l. revert ks.
  induction l as [|s l IH]; intros ks; cbn [mapO]; [intros [= <-] []|].
  destruct (require_key s) as [r|] eqn:R; [|discriminate]. destruct (mapO require_key l) as [rs|]; [|discriminate].
  intros [= <-] [->|X]; [|exact (IH _ eq_refl X)]. unfold require_key in R.
  destruct s as [[]|]; try discriminate. destruct s; try discriminate.
  destruct (req_of_value s) as [[]|]; discriminate.
Qed.

(** ** problems *)
Definition plain_term (t : term) : Prop :=
  (exists n, t = TConst n None /\ legal_name n) \/ (exists n, t = TVar (mkVar n []) /\ legal_name n).
Lemma problem_terms t : from_ctx problem_ctx t -> plain_term t.
Proof.
  intros [(n & H)|[(n & v & _ & H)|(n & v & -> & _ & H)]].
  - cbn in H. apply mk_const_Ok in H as (-> & L & _). left. eauto.
  - discriminate.
  - apply mk_var_Ok in H as (-> & L & _). right. eauto.
Qed.
Lemma plain_fits t : plain_term t -> fits problem_ctx t.
Proof.
  intros [(n & -> & L)|(n & -> & L)]; cbn.
  - split; auto. apply mk_const_Ok. auto.
  - auto.
Qed.
Lemma plain_untyped t : plain_term t -> untyped_term t = t.
Proof. now intros [(n & -> & _)|(n & -> & _)]. Qed.
Lemma plains_untyped ts : Forall plain_term ts -> map untyped_term ts = ts.
Proof. induction 1; cbn; auto. rewrite plain_untyped by auto. congruence. Qed.
Lemma map_id_in {A} (f : A -> A) l : (forall x, In x l -> f x = x) -> map f l = l.
Proof. induction l; cbn; intros H; auto. rewrite H, IHl; auto. Qed.
Lemma lexp_untyped f : lexp plain_term f -> untyped f = f.
Proof.
  induction f using form_ind'; cbn [lexp untyped]; try (intros []; fail).
  - intros [_ T]. now rewrite plains_untyped.
  - auto.
  - intros L. f_equal. apply map_id_in. rewrite Forall_forall in H.
    destruct k; try (now destruct L).
    + destruct ops as [|a [|]]; try (now destruct L). intros x [<-|[]]. apply H; cbn; auto.
    + apply fold_and_Forall in L. rewrite Forall_forall in L. auto.
    + apply fold_and_Forall in L. rewrite Forall_forall in L. auto.
    + apply fold_and_Forall in L. rewrite Forall_forall in L. auto.
Qed.
Lemma lcond_untyped X f : lcond plain_term X f -> untyped f = f.
Proof.
  induction f using form_ind'; cbn [lcond untyped]; try (intros []; fail).
  - intros (_ & T & _). now rewrite plains_untyped.
  - intros (_ & L & R & _). now rewrite !plain_untyped.
  - intros L. f_equal. apply map_id_in. 
    destruct k; try (now destruct L);
      try (destruct ops as [|a [|b [|]]]; try (now destruct L); destruct L as [La Lb];
           intros x [<-|[<-|[]]]; now apply lexp_untyped).
    intros x I. rewrite Forall_forall in L. apply lexp_untyped. auto.
  - intros L. f_equal. apply map_id_in. rewrite Forall_forall in H. destruct k; try (now destruct L).
    + apply fold_and_Forall in L. rewrite Forall_forall in L. auto.
    + destruct L as [_ L]. apply fold_and_Forall in L. rewrite Forall_forall in L. auto.
    + destruct ops as [|a [|b [|]]]; try (now destruct L). destruct L as (_ & La & Lb).
      intros x [<-|[<-|[]]]; apply H; cbn; auto.
  - intros L. now rewrite IHf.
  - intros (_ & _ & L). now rewrite IHf.
Qed.
Lemma goal_loose g f : gd problem_ctx g = Ok f -> lcond plain_term (g_ext problem_ctx) f.
Proof.
  intros G. apply (gd_l problem_ctx plain_term problem_terms) with g; auto. intros s tl vs H V. cbn in H.
  apply bind_Ok in H as (x & _ & H). injection H as <-. injection V as <-. split; [constructor|split].
  - exists [], []. auto.
  - intros v w [].
Qed.
Lemma loose_goal f : lcond plain_term (g_ext problem_ctx) f -> writable f -> goal_form f.
Proof.
  intros L W. unfold goal_form. rewrite (lcond_untyped _ _ L). apply (lcond_strict problem_ctx plain_term (g_ext problem_ctx)); auto using plain_fits.
Qed.

Lemma ground_names ns ts : mapR (fun x => mk_const x None) ns = Ok ts -> Forall ground ts.
Proof.
  intros M. apply mapR_Ok in M. induction M as [|n t ns ts E M IH]; constructor; auto.
  apply mk_const_Ok in E as (-> & L & _). exists n, None. auto.
Qed.
Lemma basic_ok s f : basic_function_term s = Ok f -> exists n ts, f = FNumFun n ts /\ legal_function n /\ Forall ground ts.
Proof.
  assert (Z : forall n ts g, Forall ground ts -> mk_numfun n ts = Ok g ->
    exists n0 ts0, g = FNumFun n0 ts0 /\ legal_function n0 /\ Forall ground ts0).
  { intros n ts g G H. unfold mk_numfun in H. apply bind_Ok in H as (n' & N & H).
    apply parse_function_Ok' in N as [-> N]. injection H as <-. eauto. }
  destruct s as [[]|[|[[]|] l]]; cbn; try discriminate; intros H.
  - eapply Z; eauto.
  - apply bind_Ok in H as (ns & _ & H). apply bind_Ok in H as (ts & T & H). apply ground_names in T. eapply Z; eauto.
Qed.
Definition objs_ok (objs : list (string * const)) : Prop := forall n k, dict_get String.eqb n objs = Some k ->
  fst k = n /\ legal_name n.
Lemma atomic_name_ok objs s f : objs_ok objs -> atomic_formula_name objs s = Ok f ->
  exists n ts, f = FPred n ts /\ legal_name n /\ Forall ground ts.
Proof.
  intros K. destruct s as [[]|[|[[]|] l]]; cbn; try discriminate; intros H.
  apply bind_Ok in H as (ns & _ & H). apply bind_Ok in H as (ts & T & H). apply mk_pred_iff in H as (-> & L & _).
  exists s, ts. split; auto. split; auto. apply mapR_Ok in T. induction T as [|n t ns ts E T IH]; constructor; auto.
  destruct (dict_get String.eqb n objs) as [k|] eqn:D.
  - injection E as <-. destruct (K _ _ D) as [E L']. exists (fst k), (snd k). split; [reflexivity|now rewrite E].
  - apply mk_const_Ok in E as (-> & L' & _). exists n, None. auto.
Qed.
Lemma init_ok objs s f : objs_ok objs -> init_el objs s = Ok f -> init_form f.
Proof.
  intros K H. unfold init_el in H. destruct s as [|[|[[| | |w| |o| |]|] args]]; try discriminate.
  - destruct (String.eqb w "not").
    + destruct args as [|y [|]]; try discriminate. apply bind_Ok in H as (g & G & H). injection H as <-.
      apply atomic_name_ok in G as (n & ts & -> & L & T); auto. now constructor.
    + apply atomic_name_ok in H as (n & ts & -> & L & T); auto. now constructor.
  - destruct args as [|f0 [|[[]|] [|]]]; try discriminate. destruct (String.eqb o "="); [|discriminate].
    apply bind_Ok in H as (g & G & H). apply bind_Ok in H as (v & V & H).
    apply basic_ok in G as (n & ts & -> & L & T).
    assert (E : f = FBinFun BEqual [FNumFun n ts; FNumVal v]) by (injection H as <-; reflexivity). subst f.
    unfold num_literal in V. destruct (split_dot s) as [i [d|]]; apply bind_Ok in V as (k & _ & V);
      injection V as <-; constructor; auto; lia.
Qed.

Fixpoint lmet (f : form) : Prop :=
  match f with
  | FNumFun n ts => legal_function n /\ Forall ground ts
  | FNumVal (NStr s) => dotted s
  | FBinFun BMinus ops => match ops with [a] => lmet a | _ => False end
  | FBinFun (BPlus | BTimes | BDivide) ops => fold_right (fun g p => lmet g /\ p) True ops
  | _ => False
  end.
Lemma lmet_mk k ops : In k [BPlus; BTimes; BDivide] -> Forall lmet ops -> lmet (mk_binfun k ops).
Proof.
  intros K. apply (mk_op_P lmet (CFun k)).
  - intros f l O L. apply ops_if_raw in O. subst f. cbn [raw_node lmet] in L.
    destruct K as [<-|[<-|[<-|[]]]]; now apply fold_and_Forall in L.
  - intros l L. destruct K as [<-|[<-|[<-|[]]]]; cbn [raw_node lmet]; now apply fold_and_Forall.
Qed.
Lemma metric_l s : (forall n, number_in n s -> dotted n) -> forall f, metric_f_exp s = Ok f -> lmet f.
Proof.
  assert (H0 : forall x g, basic_function_term x = Ok g -> lmet g).
  { intros x g H. apply basic_ok in H as (n & ts & -> & L & T). cbn. auto. }
  induction s as [t|l IH] using sexp_ind'; intros ND f.
  - destruct t; try (apply H0). cbn. intros [= <-]. apply ND. constructor.
  - destruct l as [|[[]|] args]; try (apply H0). cbn [metric_f_exp]. inversion IH as [|? ? _ IHa0]; subst.
    assert (IHa : Forall (fun x => forall f, metric_f_exp x = Ok f -> lmet f) args).
    { rewrite Forall_forall in *. intros x X. apply IHa0; auto. intros n Nn. apply ND. econstructor; [right; exact X|exact Nn]. }
    intros H. destruct (arith_op s (length args)) as [k|] eqn:A; [|discriminate].
    apply bind_Ok in H as (ops & M & H). injection H as <-.
    assert (L : Forall lmet ops) by (eapply mapR_Forall'; eauto).
    pose proof (proj1 (mapR_Ok _ _ _) M) as M2.
    assert (Len : length args = length ops) by (clear - M2; induction M2; cbn; auto).
    unfold arith_op in A.
    destruct (String.eqb s "+"). { destruct (Nat.leb _ _); [|discriminate]. injection A as <-. apply lmet_mk; simpl; auto. }
    destruct (String.eqb s "*"). { destruct (Nat.leb _ _); [|discriminate]. injection A as <-. apply lmet_mk; simpl; auto. }
    destruct (String.eqb s "/"). { destruct (Nat.eqb _ _); [|discriminate]. injection A as <-. apply lmet_mk; simpl; auto. }
    destruct (String.eqb s "-"); [|discriminate]. destruct (Nat.eqb_spec (length args) 1) as [E|]; [|discriminate].
    injection A as <-. rewrite E in Len. destruct ops as [|a [|]]; try discriminate.
    cbn. now inversion L.
Qed.
Lemma lmet_strict f : lmet f -> writable f -> metric_form f.
Proof.
  induction f using form_ind'; cbn [lmet writable]; try (intros []; fail).
  - intros [A B] _. now constructor.
  - destruct v; intros A _; try (now destruct A). now constructor.
  - intros A [B C]. apply fold_and_Forall in C.
    rewrite Forall_forall in H, C.
    assert (Z : fold_right (fun g p => lmet g /\ p) True ops -> Forall metric_form ops).
    { intros L. apply fold_and_Forall in L. rewrite Forall_forall in L. apply Forall_forall. eauto. }
    destruct k; try (now destruct A); cbn [arity_ok] in B.
    + destruct ops as [|a [|]]; try (now destruct A). constructor.
      exact (H a (or_introl eq_refl) A (C a (or_introl eq_refl))).
    + constructor; auto.
    + constructor; auto.
    + apply Z in A. destruct ops as [|a [|b [|]]]; try discriminate. inversion A as [|? ? A1 A2]; subst.
      inversion A2; subst. constructor; auto.
Qed.
Lemma mk_metric_Ok f o m : mk_metric f o = Ok m -> m = mkMetric f o /\ In o ["maximize"; "minimize"].
Proof.
  unfold mk_metric. intros H. apply bind_Ok in H as ([] & C & H). injection H as <-. apply check_Ok in C.
  split; auto. now apply memb_string_In.
Qed.
Lemma metric_built s : forall f, metric_f_exp s = Ok f -> built f.
Proof.
  assert (H0 : forall x g, basic_function_term x = Ok g -> built g).
  { intros x g. destruct x as [[]|[|[[]|] l]]; cbn; try discriminate; intros H.
    - eapply B_numfun; eauto.
    - apply bind_Ok in H as (ns & _ & H). apply bind_Ok in H as (ts & _ & H). eapply B_numfun; eauto. }
  induction s as [t|l IH] using sexp_ind'; intros f.
  - destruct t; try (apply H0). cbn. intros [= <-]. constructor.
  - destruct l as [|[[]|] args]; try (apply H0). cbn [metric_f_exp]. inversion IH as [|? ? _ IHa]; subst.
    intros H. destruct (arith_op s (length args)) as [k|] eqn:A; [|discriminate].
    apply bind_Ok in H as (ops & M & H). injection H as <-. constructor. eapply mapR_Forall'; eauto.
Qed.
(** what every parsed problem is like *)
Record loose_problem (p : problem) : Prop := mkLP {
  lp_reqs : ~ In OBJECT_FLUENTS (get_requirements p);
  lp_objects : forall n g, In (n, g) (p_objects p) -> legal_name n /\ (forall t, g = Some t -> legal_type t);
  lp_init : Forall init_form (p_init p);
  lp_goal : built (p_goal p) /\ lcond plain_term (g_ext problem_ctx) (p_goal p);
  lp_metric : forall m, p_metric p = Some m -> In (me_opt m) ["maximize"; "minimize"] /\ built (me_expr m) /\ lmet (me_expr m)
}.
Lemma parsed_problem_loose s p : parse_problem s = Ok p -> problem_reach p /\ p_domain p = None /\ loose_problem p.
Proof.
  intros P. apply parse_problem_inv in P as (n & dn & l & T & R).
  apply problem_rule_inv in R as (o1 & o2 & inits & g & o5 & rs & os & init & goal & m & El & Rq & Os & I & G & Me & M).
  assert (OK : match os with Some d => NoDup (map fst d) /\ Forall (fun kv => fst (snd kv) = fst kv
     /\ legal_name (fst (snd kv)) /\ (forall t, snd (snd kv) = Some t -> legal_type t)) d | None => True end).
  { destruct o2 as [l2|]; cbn in Os.
    - apply bind_Ok in Os as (d & D & Os). injection Os as <-. now apply objects_ok in D.
    - now injection Os as <-. }
  assert (PD : p_domain p = None /\ (forall r, p_reqs p = Some r -> rs <> None /\ forall x, In x r -> In x (match rs with Some y => y | None => [] end))).
  { unfold mk_problem in M. apply bind_Ok in M as (n' & _ & M). apply bind_Ok in M as ((d', dn') & H1 & M).
    apply bind_Ok in M as (rs' & H2 & M). apply bind_Ok in M as ([] & _ & M). apply bind_Ok in M as ([] & _ & M).
    injection M as <-. cbn in *. apply bind_Ok in H1 as (dn2 & _ & H1). injection H1 as <- _. split; auto.
    intros r ->. destruct rs as [y|]; cbn in H2; [|discriminate]. injection H2 as <-. split; [discriminate|].
    intros x. apply dedup_In. }
  destruct PD as [PD PR].
  split; [eapply PR_new; [|exact M]; discriminate|]. split; auto.
  apply mk_problem_fields in M as (Mi & Mg & Mm & Mo & _). split.
  - unfold get_requirements. rewrite PD. destruct (p_reqs p) as [r|] eqn:E; [|intros []].
    intros X. destruct (PR _ eq_refl) as [_ Y]. specialize (Y _ X). destruct rs as [ks|]; [|destruct Y].
    destruct o1 as [l1|]; cbn in Rq; [|discriminate]. apply bind_Ok in Rq as (ks' & K & Rq). injection Rq as ->.
    now apply require_keys_fluents in K.
  - intros x t X. rewrite Mo in X. apply dedup_In in X. destruct os as [d|]; [|destruct X].
    destruct OK as [_ F]. rewrite Forall_forall in F. apply in_map_iff in X as ([k c] & E & X).
    cbn in E. subst c. destruct (F _ X) as (_ & A & B). auto.
  - apply Forall_forall. intros f F. rewrite Mi in F. apply dedup_In in F. apply mapR_Ok in I.
    assert (Y : exists x, init_el (match os with Some d => d | None => [] end) x = Ok f).
    { clear - I F. induction I as [|a b l1 l2 E I IH]; [destruct F|]. destruct F as [->|F]; eauto. }
    destruct Y as (x & Y). eapply init_ok; [|exact Y]. intros k c D. destruct os as [d|]; [|discriminate].
    destruct OK as [_ OK]. apply dict_get_In in D as (k' & D & E). apply String.eqb_eq in E. subst k'.
    rewrite Forall_forall in OK. destruct (OK _ D) as (A & B & _). cbn in *. now rewrite <- A.
  - rewrite Mg. split; [now apply gd_built in G|eapply goal_loose; eauto].
  - intros m' E. rewrite <- Mm, E in Me.  destruct o5 as [l5|]; cbn in Me; [|discriminate].
    apply bind_Ok in Me as (m2 & Me & E'). injection E' as E'. subst m2.
    destruct l5 as [|[[]|] [|e [|]]]; cbn in Me; try discriminate.
    destruct (_ || _); [|discriminate]. apply bind_Ok in Me as (f & Fe & Me).
    apply mk_metric_Ok in Me as [-> O]. cbn [me_opt me_expr]. split; auto. split; [eapply metric_built; eauto|].
    eapply metric_l; [|exact Fe]. intros k K. unfold problem_text in T. eapply read_text_dotted; [exact T|left; reflexivity|].
    apply (NI_list _ (section_sx ":metric" [SAtom (TWord s0); e])).
    + right. right. right. subst l. unfold problem_sections. apply in_or_app. right. apply in_or_app. right. right. right. left. reflexivity.
    + apply (NI_list _ e); [right; right; left; reflexivity|exact K].
Qed.
Lemma parsed_problem_expressible s p : parse_problem s = Ok p -> writable_problem p ->
  problem_reach p /\ p_domain p = None /\ expressible_problem p.
Proof.
  intros P (Wg & Wm). destruct (parsed_problem_loose s p P) as (R & D & [L1 L2 L3 [L4 L5] L6]). split; auto. split; auto.
  constructor; auto.
  - split; auto. now apply loose_goal.
  - intros m M. destruct (L6 m M) as (O & B & L). split; auto. split; auto. apply lmet_strict; auto.
Qed.

