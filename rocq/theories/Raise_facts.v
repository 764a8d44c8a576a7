(** Which exceptions the functions of the model can raise. *)
From Coq Require Import String List Bool Arith Lia.
From Verif Require Import Py Names Reqs Logic Validation Core Lexer TypedList UpdateTags Parser.
From Verif Require Import Py_facts Names_facts Logic_facts Spec_Parse TypedList_facts Parse_facts GD_facts.
Import ListNotations.
Open Scope string_scope.
Open Scope list_scope.

(** a call that raises, if at all, one of [l] *)
Definition within {A} (l : list exn) (r : res A) : Prop := forall e, r = Err e -> In e l.

Lemma within_Ok {A} l (a : A) : within l (Ok a).
Proof. intros e E. discriminate. Qed.
Lemma within_Err {A} l e : In e l -> within l (@Err A e).
Proof. intros H e' E. injection E as <-. exact H. Qed.
Lemma within_bind {A B} l (r : res A) (k : A -> res B) :
  within l r -> (forall a, r = Ok a -> within l (k a)) -> within l (bind r k).
Proof. intros H K e E. destruct r as [a|e']; cbn in E; [exact (K a eq_refl e E)|]. injection E as <-. now apply H. Qed.
Lemma within_check l b e : In e l -> within l (check b e).
Proof. intros H. destruct b; [apply within_Ok|now apply within_Err]. Qed.
Lemma within_incl {A} l m (r : res A) : within l r -> incl l m -> within m r.
Proof. intros H I e E. apply I, H, E. Qed.
Lemma within_mapR {A B} l (f : A -> res B) xs :
  (forall x, In x xs -> within l (f x)) -> within l (mapR f xs).
Proof.
  induction xs as [|x xs IH]; intros H; cbn [mapR]; [apply within_Ok|].
  apply within_bind; [apply H; now left|]. intros y _. apply within_bind; [|intros; apply within_Ok].
  apply IH. intros z Hz. apply H. now right.
Qed.
Lemma within_iterR {A} l (f : A -> res unit) xs :
  (forall x, In x xs -> within l (f x)) -> within l (iterR f xs).
Proof.
  induction xs as [|x xs IH]; intros H; cbn [iterR]; [apply within_Ok|].
  apply within_bind; [apply H; now left|]. intros y _. apply IH. intros z Hz. apply H. now right.
Qed.
Lemma within_of_opt {A} l (o : option A) : In LarkSyntaxError l -> within l (of_opt o).
Proof. intros H. destruct o; [apply within_Ok|now apply within_Err]. Qed.
Lemma within_except {A} l (r : res A) e :
  within (ValueError :: l) r -> In e l -> within l (except_value r e).
Proof.
  intros H He e' E. destruct r as [a|e0]; cbn in E; [discriminate|].
  destruct e0; injection E as <-; try exact He;
    match goal with |- In ?x _ => destruct (H x eq_refl) as [D|D]; [discriminate D|exact D] end.
Qed.

Definition nameE := [ValueError; PDDLValidationError].
Definition listE := [PDDLValidationError; PDDLParsingError; LarkSyntaxError].
Ltac inl := cbn [In nameE listE]; tauto.

(** * Constructors *)

Lemma mk_name_within s : within nameE (mk_name s).
Proof. unfold mk_name. destruct (name_regex s); [apply within_Ok|apply within_Err; inl]. Qed.
Lemma keyword_within i s : within nameE (check_not_a_keyword i s).
Proof. unfold check_not_a_keyword. destruct (is_a_keyword i s); [apply within_Err; inl|apply within_Ok]. Qed.
Lemma parse_name_within s : within nameE (parse_name s).
Proof. apply within_bind; [apply keyword_within|intros; apply mk_name_within]. Qed.
Lemma parse_type_within s : within nameE (parse_type s).
Proof. apply within_bind; [apply keyword_within|intros; apply mk_name_within]. Qed.
Lemma parse_function_within s : within nameE (parse_function s).
Proof. apply within_bind; [apply keyword_within|intros; apply mk_name_within]. Qed.

Lemma term_init_within n c : within nameE (term_init n c).
Proof.
  apply within_bind; [apply parse_name_within|intros n' _].
  apply within_bind.
  - destruct c as [|l|l]; try apply within_Ok. cbn [check_no_duplicates].
    generalize (@nil string). induction l as [|x l IH]; intros seen; cbn [no_dup_from]; [apply within_Ok|].
    destruct (memb String.eqb x seen); [apply within_Err; inl|apply IH].
  - intros _ _. apply within_bind; [|intros; apply within_Ok].
    apply within_mapR. intros x _. apply parse_type_within.
Qed.
Lemma mk_const_within n g : within nameE (mk_const n g).
Proof. apply within_bind; [apply term_init_within|intros; apply within_Ok]. Qed.
Lemma mk_var_within n c : within nameE (mk_var n c).
Proof. apply within_bind; [apply term_init_within|intros; apply within_Ok]. Qed.
Lemma mk_vars_within l : within nameE (mk_vars l).
Proof. apply within_mapR. intros x _. apply mk_var_within. Qed.

Lemma consistency_within ts : within nameE (check_terms_consistency ts).
Proof.
  unfold check_terms_consistency. generalize (@nil (string * list string)).
  induction ts as [|t ts IH]; intros seen; cbn [consistency_from]; [apply within_Ok|].
  destruct (dict_get String.eqb (t_name t) seen); [|apply IH].
  apply within_bind; [apply within_check; inl|intros; apply IH].
Qed.
Lemma mk_pred_within n ts : within nameE (mk_pred n ts).
Proof.
  apply within_bind; [apply parse_name_within|intros].
  apply within_bind; [apply consistency_within|intros; apply within_Ok].
Qed.
Lemma mk_eq_within a b : within nameE (mk_eq a b).
Proof. apply within_bind; [apply consistency_within|intros; apply within_Ok]. Qed.
Lemma mk_numfun_within n ts : within nameE (mk_numfun n ts).
Proof. apply within_bind; [apply parse_function_within|intros; apply within_Ok]. Qed.

(** * Typed lists *)
Section Typed.
  Context {A : Type} (eqb : A -> A -> bool) (parse_item : A -> res A).
  Hypothesis item_within : forall a, within nameE (parse_item a).

  Lemma add_item_within dup ix a tags : within nameE (add_item eqb dup ix a tags).
  Proof.
    apply within_bind.
    - destruct dup; [apply within_Ok|]. apply within_bind; [apply within_check; inl|].
      intros; apply within_check; inl.
    - intros _ _. apply within_bind; [|intros; apply within_Ok].
      unfold check_item_types. destruct (dict_get eqb a (ti_items ix)); [apply within_check; inl|].
      apply within_Ok.
  Qed.
  Lemma add_typed_lists_within dup items tags : forall ix,
    within nameE (add_typed_lists eqb parse_item dup ix items tags).
  Proof.
    induction items as [|[a| |gs] items IH]; intros ix; cbn [add_typed_lists];
      try (apply within_Err; inl); [apply within_Ok|].
    apply within_bind; [apply item_within|intros a' _].
    apply within_bind; [apply within_mapR; intros; apply parse_type_within|intros tags' _].
    apply within_bind; [apply add_item_within|intros ix' _]. apply IH.
  Qed.
  Lemma add_all_within dup l : forall ix, within nameE (add_all eqb parse_item dup ix l).
  Proof.
    induction l as [|[a tags] l IH]; intros ix; [apply within_Ok|].
    cbn [add_all]. apply within_bind; [apply item_within|intros a' _].
    apply within_bind; [apply within_mapR; intros; apply parse_type_within|intros tags' _].
    apply within_bind; [apply add_item_within|intros ix' _]. apply IH.
  Qed.
End Typed.

Lemma typed_list_variable_within l : within listE (typed_list_variable l).
Proof.
  unfold typed_list_variable. destruct (tl_vars false l) as [toks|] eqn:T; [|apply within_Err; inl].
  apply tl_vars_written in T as (groups & tail & _ & ->). cbn [of_opt bind].
  apply within_except; [|inl]. apply within_bind; [|intros; apply within_Ok].
  rewrite parse_typed_list_all. eapply within_incl; [apply add_all_within, parse_name_within|].
  intros e. inl.
Qed.
Lemma names_within {A} (ix : tindex (A := A)) : within nameE (typed_list_of_names ix).
Proof.
  apply within_mapR. intros [a gs] _. cbn [fst snd].
  destruct gs as [|g [|]]; try apply within_Ok. apply within_Err. inl.
Qed.
Lemma typed_list_name_within l : within listE (typed_list_name l).
Proof.
  unfold typed_list_name. destruct (tl_names false l) as [toks|] eqn:T; [|apply within_Err; inl].
  apply tl_names_written in T as (groups & tail & _ & ->). cbn [of_opt bind].
  apply within_except; [|inl]. apply within_bind; [|intros ix _; eapply within_incl; [apply names_within|intros e; inl]].
  rewrite parse_typed_list_all. eapply within_incl; [apply add_all_within, parse_name_within|].
  intros e. inl.
Qed.

(** * Conditions and effects, in any context *)
Lemma num_literal_within s : within [ValueError] (num_literal s).
Proof.
  assert (D : forall x, within [ValueError] (Parser.digits x)).
  { intros x. unfold Parser.digits. destruct (DecimalString.NilEmpty.uint_of_string x);
      [apply within_Ok|apply within_Err; inl]. }
  unfold num_literal. destruct (split_dot s) as [i [f|]];
    (apply within_bind; [apply D|intros; apply within_Ok]).
Qed.

Section Context.
  Variables (E : list exn) (c : gctx).
  Hypothesis HN : incl nameE E.
  Hypothesis HM : forall r, In r [EQUALITY; DIS_PRECONDITION; EXISTENTIAL_PRECONDITION; UNIVERSAL_PRECONDITION] ->
    In (PDDLMissingRequirementError r) E.
  Hypothesis HS : In LarkSyntaxError E.
  Hypothesis HC : forall n, within E (g_const c n).
  Hypothesis HV : forall l, within E (g_vars c l).

  Hypothesis HO : In (PDDLMissingRequirementError NON_DETERMINISTIC) E.

  Ltac name L := eapply within_incl; [apply L|exact HN].
  Ltac bnd := apply within_bind; [|intros ? _].

  Lemma resolve_within t : within E (resolve c t).
  Proof. destruct t; cbn; [|apply within_Ok]. bnd; [apply HC|apply within_Ok]. Qed.
  Lemma cov_within t : within E (constant_or_variable c t).
  Proof.
    destruct t; cbn; [apply within_Ok|]. destruct (dict_get String.eqb s (g_params c)); [apply within_Ok|].
    bnd; [name mk_var_within|apply within_Ok].
  Qed.
  Lemma atomic_pred_within n args : within E (atomic_pred c n args).
  Proof.
    bnd; [now apply within_of_opt|]. bnd; [apply within_mapR; intros; apply resolve_within|].
    bnd; [apply within_mapR; intros; apply cov_within|]. name mk_pred_within.
  Qed.
  Lemma atomic_eq_within args : within E (atomic_eq c args).
  Proof.
    unfold atomic_eq. destruct (terms args) as [[|a [|b [|]]]|]; try (now apply within_Err).
    bnd; [apply resolve_within|]. bnd; [apply resolve_within|]. bnd; [apply within_check; try exact HO; apply HM; inl|].
    bnd; [apply cov_within|]. bnd; [apply cov_within|]. name mk_eq_within.
  Qed.
  Lemma atomic_formula_term_within s : within E (atomic_formula_term c s).
  Proof.
    destruct s as [|[|[[]|] l]]; cbn [atomic_formula_term]; try (now apply within_Err).
    - apply atomic_pred_within.
    - destruct (String.eqb s "="); [apply atomic_eq_within|now apply within_Err].
  Qed.
  Lemma f_head_within s : within E (f_head c s).
  Proof.
    destruct s as [[]|[|[[]|] l]]; cbn [f_head]; try (now apply within_Err).
    - name mk_numfun_within.
    - bnd; [now apply within_of_opt|]. bnd; [apply within_mapR; intros; apply resolve_within|].
      bnd; [apply within_mapR; intros; apply cov_within|]. name mk_numfun_within.
  Qed.
  Lemma f_exp_within s : within E (f_exp c s).
  Proof.
    induction s as [t|l IH] using sexp_ind'.
    - destruct t; try (apply f_head_within). cbn [f_exp].
      bnd; [|apply within_Ok]. eapply within_incl; [apply num_literal_within|].
      intros e [<-|[]]. apply HN. inl.
    - destruct l as [|[[]|] args]; try (apply f_head_within). cbn [f_exp].
      destruct (arith_op s (length args)); [|now apply within_Err].
      bnd; [|apply within_Ok]. apply within_mapR. inversion IH; subst. now apply Forall_forall.
  Qed.
  Lemma gd_within s : within E (gd c s).
  Proof.
    induction s as [t|l IH] using sexp_ind'; [now apply within_Err|].
    destruct l as [|[[]|] args]; try (now apply within_Err); inversion IH as [|? ? _ IHa]; subst; clear IH.
    - assert (M : within E (mapR (gd c) args)) by (apply within_mapR; now apply Forall_forall).
      cbn [gd]. destruct (String.eqb s "or").
      { bnd; [exact M|]. bnd; [apply within_check; try exact HO; apply HM; inl|apply within_Ok]. }
      destruct (String.eqb s "not").
      { destruct args as [|x [|]]; try (now apply within_Err). bnd; [now inversion IHa|apply within_Ok]. }
      destruct (String.eqb s "and"). { bnd; [exact M|apply within_Ok]. }
      destruct (String.eqb s "imply").
      { destruct args as [|x [|y [|]]]; try (now apply within_Err).
        inversion IHa as [|? ? Hx I2]; subst. inversion I2; subst.
        bnd; [auto|]. bnd; [auto|]. bnd; [apply within_check; try exact HO; apply HM; inl|apply within_Ok]. }
      destruct (String.eqb s "exists" || String.eqb s "forall").
      { assert (R : In (snd (if String.eqb s "exists" then (QExists, EXISTENTIAL_PRECONDITION) else (QForall, UNIVERSAL_PRECONDITION)))
                      [EXISTENTIAL_PRECONDITION; UNIVERSAL_PRECONDITION]) by (destruct (String.eqb s "exists"); inl).
        destruct (if String.eqb s "exists" then _ else _) as [q r]. cbn [snd] in R.
        destruct args as [|[|vs] [|x [|]]]; try (now apply within_Err).
        inversion IHa as [|? ? _ I2]; subst. inversion I2; subst.
        bnd; [apply HV|]. bnd; [auto|]. bnd; [apply within_check, HM; simpl in *; tauto|]. bnd; [name mk_vars_within|apply within_Ok]. }
      apply atomic_pred_within.
    - cbn [gd]. destruct (String.eqb s "=" && starts_term args); [apply atomic_eq_within|].
      destruct (Parser.comparison s) as [k|]; [|now apply within_Err].
      destruct args as [|x [|y [|]]]; try (now apply within_Err).
      bnd; [apply f_exp_within|]. bnd; [apply f_exp_within|apply within_Ok].
  Qed.
  Lemma emptyor_pregd_within s : within E (emptyor_pregd c s).
  Proof. destruct s as [|[|x l]]; cbn [emptyor_pregd]; try apply gd_within. apply within_Ok. Qed.
  Lemma p_effect_within s : within E (p_effect c s).
  Proof.
    destruct s as [t|[|[[]|] args]]; cbn [p_effect]; try apply atomic_formula_term_within.
    destruct (String.eqb s "not").
    - destruct args as [|x [|]]; try (now apply within_Err).
      bnd; [apply atomic_formula_term_within|apply within_Ok].
    - destruct (assign_op s); [|apply atomic_formula_term_within].
      destruct args as [|x [|y [|]]]; try (now apply within_Err).
      bnd; [apply f_head_within|]. bnd; [apply f_exp_within|apply within_Ok].
  Qed.
  Lemma cond_effect_within s : within E (cond_effect c s).
  Proof.
    destruct s as [t|[|[[]|] args]]; cbn [cond_effect]; try apply p_effect_within.
    destruct (String.eqb s "and"); [|apply p_effect_within].
    bnd; [|apply within_Ok]. apply within_mapR. intros; apply p_effect_within.
  Qed.
  Lemma effect_within s : forall top, within E (effect c top s).
  Proof.
    induction s as [t|l IH] using sexp_ind'; intros top; [apply p_effect_within|].
    destruct l as [|[[]|] args]; try (apply p_effect_within); inversion IH as [|? ? _ IHa]; subst; clear IH.
    assert (M : forall b, within E (mapR (effect c b) args)).
    { intros b. apply within_mapR. rewrite Forall_forall in IHa. intros; now apply IHa. }
    cbn [effect]. destruct (top && String.eqb s "and"). { bnd; [apply M|apply within_Ok]. }
    destruct (String.eqb s "forall").
    { destruct args as [|[|vs] [|x [|]]]; try (now apply within_Err).
      inversion IHa as [|? ? _ I2]; subst. inversion I2; subst.
      bnd; [apply HV|]. bnd; [auto|]. bnd; [name mk_vars_within|apply within_Ok]. }
    destruct (String.eqb s "when").
    { destruct args as [|x [|y [|]]]; try (now apply within_Err).
      bnd; [apply gd_within|]. bnd; [apply cond_effect_within|apply within_Ok]. }
    destruct (String.eqb s "oneof"); [|apply p_effect_within].
    destruct args as [|x args]; [now apply within_Err|].
    bnd; [apply M|]. bnd; [apply within_check; try exact HO; apply HM; inl|apply within_Ok].
  Qed.
  Lemma emptyor_effect_within s : within E (emptyor_effect c s).
  Proof. destruct s as [|[|x l]]; cbn [emptyor_effect]; try apply effect_within. apply within_Ok. Qed.
End Context.
