(** No callback raises the exception of the parser itself. *)
From Coq Require Import String Ascii List Bool NArith Arith Lia.
From Verif Require Import Py Names Reqs Logic Validation Core Lexer TypedList UpdateTags Parser Py_facts Logic_facts Names_facts Lex_facts Raise_facts RaiseParse_facts
     Spec_Grammar GrammarAll_facts Lark Spec_Lark LarkMain_facts Callbacks CallTree_facts.
Import ListNotations.
Open Scope string_scope.
Open Scope list_scope.

Lemma ns_Err {A} e : e <> LarkSyntaxError -> ns (@Err A e).
Proof. unfold ns. congruence. Qed.
Lemma num_ns s : ns (num_literal s).
Proof. apply (ns_within [ValueError]); [apply num_literal_within|]. cbn. intuition discriminate. Qed.

Lemma ns_iterR {A} (f : A -> res unit) l : (forall x, In x l -> ns (f x)) -> ns (iterR f l).
Proof. induction l as [|x l IH]; intros H; [apply ns_Ok|]. cbn [iterR]. apply ns_bind; [apply H; now left|]. intros. apply IH. intros; apply H; now right. Qed.
Lemma one_ns {A} (r : res A) : within [PDDLValidationError] r -> ns r.
Proof. intros H. apply (ns_within _ _ H). cbn. intuition discriminate. Qed.
Lemma update_ns f : forall m, ns (update_type_tags m f).
Proof.
  assert (T : forall m ts, ns (mapR (replace_term m) ts)) by (intros; apply ns_mapR; intros; apply ns_name, replace_term_within).
  assert (O : forall ops, Forall (fun f => forall m, ns (update_type_tags m f)) ops -> forall m, ns (mapR (update_type_tags m) ops)).
  { intros ops F m. apply ns_mapR. rewrite Forall_forall in F. auto. }
  induction f using form_ind'; intros m; cbn [update_type_tags]; try (apply ns_Err; discriminate); try apply ns_Ok.
  - apply ns_bind; [apply T|intros; apply ns_name, mk_pred_within].
  - apply ns_bind; [apply ns_name, replace_term_within|intros; apply ns_bind; [apply ns_name, replace_term_within|intros; apply ns_name, mk_eq_within]].
  - apply ns_bind; [apply T|intros; apply ns_name, mk_numfun_within].
  - apply ns_bind; [now apply O|intros; apply ns_Ok].
  - apply ns_bind; [now apply O|intros; apply ns_Ok].
  - apply ns_bind; [apply IHf|intros; apply ns_Ok].
  - apply ns_bind; [apply IHf|intros; apply ns_Ok].
Qed.
Lemma subtypes_ns types l r : ns (check_subtypes types l r).
Proof.
  destruct r as [|g r]; [apply ns_Ok|]. apply ns_iterR. intros x _.
  assert (Q : forall p r', subtype_step types x (g :: r) p = inr r' -> ns r').
  { intros p r'. unfold subtype_step. destruct p as [p|]; [|intros [= <-]; apply ns_Err; discriminate].
    destruct (memb String.eqb p (g :: r)); [intros [= <-]; apply ns_Ok|].
    destruct types; [discriminate|intros [= <-]; apply ns_Err; discriminate]. }
  unfold check_subtype. cbn [loop].
  destruct (subtype_step types x (g :: r) (Some x)) as [p|r'] eqn:E1; [|eauto].
  destruct (subtype_step types x (g :: r) p) as [p'|r'] eqn:E2; [|eauto].
  destruct (subtype_step types x (g :: r) p') as [p''|r'] eqn:E3; [apply ns_Err; discriminate|eauto].
Qed.
Lemma head_types_ns types head : forall m def, ns (head_types types m head def).
Proof.
  induction head as [|t head IH]; intros m def; [destruct def; apply ns_Ok|].
  destruct def as [|d def]; [apply ns_Ok|]. cbn [head_types]. destruct t as [|v]; [apply ns_Err; discriminate|].
  destruct (v_tags v) eqn:V; [apply IH|]. apply ns_bind; [apply subtypes_ns|intros; apply IH].
Qed.
Lemma derived_ns st h c : ns (derived_callback st h c).
Proof.
  unfold derived_callback. destruct (dict_get String.eqb (fst h) (s_predicates st)); [|apply ns_Err; discriminate].
  apply ns_bind; [apply ns_check; discriminate|intros _ _].
  apply ns_bind; [apply head_types_ns|intros m _].
  apply ns_bind; [apply update_ns|intros p _]. apply ns_bind; [apply update_ns|intros c' _].
  destruct p; try apply ns_Ok; apply ns_Err; discriminate.
Qed.
Lemma mk_domain_ns n rs ty cs ps dps fs acts : ns (mk_domain n rs ty cs ps dps fs acts).
Proof.
  unfold mk_domain. apply ns_bind; [apply ns_name, parse_name_within|intros n' _]. cbn zeta.
  apply ns_bind; [apply ns_name, types_dict_within|intros ty' _]. apply ns_bind; [apply one_ns, total_cost_within|intros _ _].
  apply ns_bind; [|intros; apply ns_Ok]. unfold domain_check_consistency.
  apply ns_bind; [apply one_ns, check_terms_within|intros _ _].
  apply ns_bind; [apply ns_iterR; intros; apply one_ns, check_terms_within|intros _ _].
  apply ns_bind.
  { apply ns_iterR. intros a _. apply ns_bind; [apply one_ns, check_terms_within|intros _ _].
    destruct (a_pre a) as [p|]; [|apply ns_Err; discriminate]. apply ns_bind; [apply one_ns, check_form_within|intros _ _].
    destruct (a_eff a) as [e|]; [apply one_ns, check_form_within|apply ns_Err; discriminate]. }
  intros _ _. apply ns_bind; [apply ns_check; discriminate|intros; apply ns_check; discriminate].
Qed.
Section TypedLists.
  Context {A : Type} (eqb : A -> A -> bool) (parse_item : A -> res A).
  Hypothesis item_within : forall a, within nameE (parse_item a).
  Lemma loop_ns fuel dup tokens : forall ix start, ns (typed_loop eqb parse_item fuel dup tokens ix start).
  Proof.
    induction fuel as [|fuel IH]; intros ix start; cbn [typed_loop]; [apply ns_Err; discriminate|].
    destruct (sep_index start tokens) as [sep|].
    - destruct (nth_error tokens (sep + 1)) as [[| |gs]|]; try (apply ns_Err; discriminate).
      apply ns_bind; [apply ns_name, add_typed_lists_within, item_within|intros; apply IH].
    - destruct (Nat.eqb start (length tokens)); [apply ns_Ok|apply ns_name, add_typed_lists_within, item_within].
  Qed.
  Lemma typed_list_ns tokens dup : ns (parse_typed_list eqb parse_item tokens dup).
  Proof.
    unfold parse_typed_list. destruct (sep_index 0 tokens); [apply loop_ns|apply ns_name, add_typed_lists_within, item_within].
  Qed.
End TypedLists.
Lemma body_ns cs : ns (body_dict cs).
Proof.
  assert (H : forall n cs, length cs <= n -> ns (body_dict cs)); [|now apply (H (length cs))].
  clear. induction n as [|n IH]; intros [|c cs] L; cbn [body_dict]; try apply ns_Ok; [cbn in L; lia|].
  destruct c; try (apply ns_Err; discriminate). destruct cs as [|v cs]; [apply ns_Err; discriminate|].
  apply ns_bind; [apply IH; cbn in L; lia|intros; apply ns_Ok].
Qed.
Lemma sections_ns args : forall kws acts dps, ns (sections args kws acts dps).
Proof. induction args as [|a args IH]; intros; cbn [sections]; [apply ns_Ok|]. destruct a; auto; apply ns_Err; discriminate. Qed.
Lemma req_ns v : ns (req_of_value v).
Proof. unfold req_of_value. destruct (find _ _); [apply ns_Ok|apply ns_Err; discriminate]. Qed.
Ltac nsun := unfold cb_domain_def, cb_functions, cb_action_def, cb_derived_predicates, cb_emptyor_pregd, cb_gd, cb_num_literal, cb_emptyor_effect, cb_effect,
     cb_c_effect, cb_f_exp, cb_f_head, cb_typed_list_name, cb_typed_list_variable, cb_f_typed_list, cb_type_def,
     cb_gd_not, cb_gd_and, cb_gd_or, cb_gd_imply, cb_gd_quantifiers, cb_gd_comparison, arg_before_last, cb_p_effect, cb_cond_effect, cb_num_effect,
     cb_atomic_formula_term, cb_constant, cb_atomic_formula_skeleton, cb_atomic_function_skeleton, formula_skeleton, cb_constant_or_variable,
     kw_str, kw_reqs, kw_types, kw_consts, kw_preds, kw_funs, some_form, mk_action, requirement,
     as_str, as_form, as_term, as_num, as_names, as_vars, as_list, as_pred, as_step, arg,
     pb_requirements, pb_init, pb_init_el, pb_literal_name, pb_basic_function_term, pb_goal, pb_atomic_formula_name, pb_metric_spec, pb_constant,
     pb_problem_def, pb_problem_domain, kw_preqs, kw_init, kw_goal, kw_metric, as_pair, pb_problem, pl_ground_action, pl_plan.
Ltac ns1 :=
  match goal with
  | |- ns (Ok _) => apply ns_Ok
  | |- ns (Err _) => apply ns_Err; discriminate
  | |- ns (check _ _) => apply ns_check; discriminate
  | |- ns (bind _ _) => apply ns_bind; [|intros ? ?]
  | |- ns (mapR _ _) => apply ns_mapR; intros ? ?
  | |- ns (except_value _ _) => apply ns_except; [|discriminate]
  | |- ns (mk_pred _ _) => apply ns_name, mk_pred_within
  | |- ns (mk_numfun _ _) => apply ns_name, mk_numfun_within
  | |- ns (mk_const _ _) => apply ns_name, mk_const_within
  | |- ns (mk_var _ _) => apply ns_name, mk_var_within
  | |- ns (mk_vars _) => apply ns_name, mk_vars_within
  | |- ns (mk_eq _ _) => apply ns_name, mk_eq_within
  | |- ns (constants_by_name _) => apply ns_name, constants_within
  | |- ns (num_literal _) => apply num_ns
  | |- ns (typed_list_of_names _) => apply ns_name, names_within
  | |- ns (parse_name _) => apply ns_name, parse_name_within
  | |- ns (parse_type _) => apply ns_name, parse_type_within
  | |- ns (mk_problem _ None (Some _) _ _ _ _ _) => apply ns_name, mk_problem_within
  | |- ns (mk_metric _ _) => unfold mk_metric
  | |- ns (mk_domain _ _ _ _ _ _ _ _) => apply mk_domain_ns
  | |- ns (derived_callback _ _ _) => apply derived_ns
  | |- ns (body_dict _) => apply body_ns
  | |- ns (req_of_value _) => apply req_ns
  | |- ns (parse_typed_list _ (fun f => Ok f) _ _) => apply typed_list_ns; intros; apply within_Ok
  | |- ns (parse_typed_list _ _ _ _) => apply typed_list_ns; intros; apply parse_name_within
  | |- ns (match ?x with _ => _ end) => destruct x
  end.
Ltac nst := repeat ns1.
Lemma ns_left {A B C} (r : res A) (f : A -> B * res C) st : ns r -> (forall a, ns (snd (f a))) ->
  ns (snd (match r with Ok a => f a | Err e => (st, Err e) end)).
Proof. intros H K. destruct r; [apply K|]. cbn [snd]. unfold ns in *. congruence. Qed.
Lemma ns_left' {A B C} (r : res A) (f : A -> B * res C) st : ns r -> (forall a, ns (snd (f a))) ->
  ns (snd (match r with Err e => (st, Err e) | Ok a => f a end)).
Proof. apply ns_left. Qed.
Lemma domain_ns n args st : ns (snd (domain_callback n args st)).
Proof.
  unfold domain_callback. repeat match goal with |- ns (snd (if ?b then _ else _)) => destruct b end; unfold pure; cbn [snd].
  all: try (unfold cb_domain; apply ns_left; [apply sections_ns|intros [[kws acts] dps]; cbn [snd]]).
  all: try (unfold cb_requirements; apply ns_left; [|intros; cbn [snd]; apply ns_Ok]).
  all: try (unfold cb_types; apply ns_left; [|intros; cbn [snd]; apply ns_Ok]).
  all: try (unfold cb_constants; apply ns_left; [|intros; cbn [snd]; apply ns_Ok]).
  all: try (unfold cb_predicates; apply ns_left; [|intros; cbn [snd]; apply ns_Ok]).
  all: try (unfold cb_action_parameters; apply ns_left; [|intros; cbn [snd]; apply ns_Ok]).
  all: nsun; nst.
Qed.
Lemma problem_ns n args objs : ns (snd (problem_callback n args objs)).
Proof.
  unfold problem_callback. repeat match goal with |- ns (snd (if ?b then _ else _)) => destruct b end; unfold pure; cbn [snd].
  all: try (unfold pb_objects; apply ns_left; [|intros; cbn [snd]; apply ns_Ok]).
  all: nsun; nsun; nsun; cbn zeta; nst.
Qed.
Lemma plan_ns n args u : ns (snd (plan_callback n args u)).
Proof.
  unfold plan_callback. repeat match goal with |- ns (snd (if ?b then _ else _)) => destruct b end; unfold pure; cbn [snd].
  all: nsun; nsun; nsun; cbn zeta; nst.
Qed.

(** a tree is never worth the parser's own exception, when no callback raises it *)
Section Worth.
  Context {St : Type}.
  Variable callback : string -> list value -> St -> St * res value.
  Hypothesis callback_ns : forall n args st, ns (snd (callback n args st)).
  Lemma worth_ns p : forall st, ns (snd (visit VTok VNone (call callback) p st)).
  Proof.
    induction p as [w|n cs IH|] using ptree_ind'; intros st; [apply ns_Ok| |apply ns_Ok]. rewrite visit_node.
    assert (H : ns (snd (visits callback cs st))).
    { revert st. induction IH as [|c cs C _ IH]; intros st; cbn [visits]; [apply ns_Ok|]. specialize (C st).
      destruct (visit VTok VNone (call callback) c st) as [st1 [v|e]]; [|cbn [snd] in *; unfold ns in *; congruence].
      specialize (IH st1). destruct (visits callback cs st1) as [st2 [vs|e]]; [apply ns_Ok|]. cbn [snd] in *; unfold ns in *; congruence. }
    destruct (visits callback cs st) as [st1 [vs|e]]; [|cbn [snd] in *; unfold ns in *; congruence].
    unfold call. destruct vs as [|v [|? ?]]; try apply callback_ns. destruct (memb String.eqb n inlined); [apply ns_Ok|apply callback_ns].
  Qed.
End Worth.
