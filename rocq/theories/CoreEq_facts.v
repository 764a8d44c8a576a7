(** Equality and hashing of actions, domains, problems and plans. *)
From Coq Require Import String List Bool ZArith.
From Verif Require Import Py Names Reqs Logic Validation Core Built
  Py_facts Logic_facts Ops_facts Built_facts Order_facts.
Import ListNotations.
Open Scope string_scope.
Open Scope list_scope.

Lemma const_eqb_equiv : is_equiv const_eqb.
Proof.
  constructor; unfold const_eqb; intros.
  - apply String.eqb_refl.
  - apply String.eqb_sym.
  - eapply (eqv_trans _ string_eqb_equiv); eauto.
Qed.
Lemma atom_eqb_equiv : is_equiv atom_eqb.
Proof. apply (lexe_equiv _ _ string_eqb_equiv (list_eqb_equiv _ term_eqb_equiv)). Qed.

Lemma action_eqb_equiv : is_equiv action_eqb.
Proof.
  pose proof (list_eqb_equiv _ term_eqb_equiv) as ET.
  pose proof (option_eqb_equiv _ form_eqb_equiv) as EF.
  constructor; unfold action_eqb.
  - intros. now rewrite String.eqb_refl, (eqv_refl _ ET), !(eqv_refl _ EF).
  - intros. rewrite String.eqb_sym, (eqv_sym _ ET), (eqv_sym _ EF (a_pre x)), (eqv_sym _ EF (a_eff x)). auto.
  - intros. btrue.
    + eapply (eqv_trans _ string_eqb_equiv); eauto.
    + eapply (eqv_trans _ ET); eauto.
    + eapply (eqv_trans _ EF); eauto.
    + eapply (eqv_trans _ EF); eauto.
Qed.

(** the dictionaries of a domain have no repeated keys *)
Definition dicts_ok (d : domain) : Prop :=
  NoDupE String.eqb (map fst (d_types d)) /\ NoDupE atom_eqb (map fst (d_functions d)).

Lemma mk_types_keys t rs sk t' : mk_types t rs sk = Ok t' -> NoDupE String.eqb (map fst t').
Proof.
  unfold mk_types, to_types. intros H. apply bind_Ok in H as (x & H1 & H).
  apply bind_Ok in H1 as (l & _ & H1). inversion H1; subst.
  apply bind_Ok in H as ([] & _ & H). inversion H; subst.
  apply dict_of_list_NoDupE, string_eqb_equiv.
Qed.

Lemma mk_domain_inv n rs ty cs ps dps fs acts d :
  mk_domain n rs ty cs ps dps fs acts = Ok d ->
  d_name d = n /\ parse_name n = Ok n /\ d_reqs d = dedup req_eqb rs /\
  mk_types ty (dedup req_eqb rs) false = Ok (d_types d) /\
  check_total_cost fs (dedup req_eqb rs) = Ok tt /\
  d_constants d = dedup const_eqb cs /\ d_predicates d = dedup atom_eqb ps /\
  d_derived d = dedup derived_eqb dps /\ d_functions d = fs /\
  d_actions d = dedup action_eqb acts /\ domain_check_consistency d = Ok tt.
Proof.
  unfold mk_domain. intros H.
  apply bind_Ok in H as (n' & Hn & H). pose proof Hn as Hn'. 
  assert (n' = n).
  { unfold parse_name, check_not_a_keyword, mk_name in Hn.
    destruct (is_a_keyword [] n); simpl in Hn; [discriminate|].
    destruct (name_regex n); inversion Hn; auto. }
  subst n'. apply bind_Ok in H as (ty' & Ht & H). apply bind_Ok in H as ([] & Hc & H).
  apply bind_Ok in H as ([] & Hd & H). inversion H; subst; simpl. repeat split; auto.
Qed.

Lemma mk_domain_dicts n rs ty cs ps dps fs acts d :
  mk_domain n rs ty cs ps dps fs acts = Ok d -> NoDupE atom_eqb (map fst fs) -> dicts_ok d.
Proof.
  intros H N. apply mk_domain_inv in H as (_ & _ & _ & Ht & _ & _ & _ & _ & Hf & _).
  split; [eapply mk_types_keys; eauto|now rewrite Hf].
Qed.

Section DictEquivOn.
  Context {K V : Type} (eqb : K -> K -> bool) (E : is_equiv eqb)
          (veqb : V -> V -> bool) (EV : is_equiv veqb).
  Notation ok d := (NoDupE eqb (map fst d)).
  Lemma dict_eqb_refl d : ok d -> dict_eqb eqb veqb d d = true.
  Proof. intros. apply dict_eqb_spec; auto. apply dict_same_refl; auto. Qed.
  Lemma dict_eqb_sym d1 d2 : ok d1 -> ok d2 -> dict_eqb eqb veqb d1 d2 = true -> dict_eqb eqb veqb d2 d1 = true.
  Proof. intros. apply dict_eqb_spec; auto. apply dict_same_sym; auto. apply (dict_eqb_spec eqb E veqb); auto. Qed.
  Lemma dict_eqb_trans d1 d2 d3 : ok d1 -> ok d2 -> ok d3 ->
    dict_eqb eqb veqb d1 d2 = true -> dict_eqb eqb veqb d2 d3 = true -> dict_eqb eqb veqb d1 d3 = true.
  Proof. intros. apply dict_eqb_spec; auto. apply (dict_same_trans eqb veqb EV d1 d2 d3); apply (dict_eqb_spec eqb E veqb); auto. Qed.
End DictEquivOn.

Definition opt_str_equiv := option_eqb_equiv _ string_eqb_equiv.

Lemma domain_eqb_refl d : dicts_ok d -> domain_eqb d d = true.
Proof.
  intros [H1 H2]. unfold domain_eqb, types_eqb, functions_eqb. btrue.
  - apply String.eqb_refl.
  - apply (eqv_refl _ (set_eqb_equiv _ req_eqb_equiv)).
  - apply dict_eqb_refl; auto using string_eqb_equiv, opt_str_equiv.
  - apply (eqv_refl _ (set_eqb_equiv _ const_eqb_equiv)).
  - apply (eqv_refl _ (set_eqb_equiv _ atom_eqb_equiv)).
  - apply dict_eqb_refl; auto using atom_eqb_equiv, opt_str_equiv.
  - apply (eqv_refl _ (set_eqb_equiv _ derived_eqb_equiv)).
  - apply (eqv_refl _ (set_eqb_equiv _ action_eqb_equiv)).
Qed.
Lemma domain_eqb_sym a b : dicts_ok a -> dicts_ok b -> domain_eqb a b = true -> domain_eqb b a = true.
Proof.
  intros [H1 H2] [H3 H4] H. unfold domain_eqb, types_eqb, functions_eqb in *. btrue.
  - now rewrite String.eqb_sym.
  - now rewrite (eqv_sym _ (set_eqb_equiv _ req_eqb_equiv)).
  - apply dict_eqb_sym; auto using string_eqb_equiv, opt_str_equiv.
  - now rewrite (eqv_sym _ (set_eqb_equiv _ const_eqb_equiv)).
  - now rewrite (eqv_sym _ (set_eqb_equiv _ atom_eqb_equiv)).
  - apply dict_eqb_sym; auto using atom_eqb_equiv, opt_str_equiv.
  - now rewrite (eqv_sym _ (set_eqb_equiv _ derived_eqb_equiv)).
  - now rewrite (eqv_sym _ (set_eqb_equiv _ action_eqb_equiv)).
Qed.
Lemma domain_eqb_trans a b c : dicts_ok a -> dicts_ok b -> dicts_ok c ->
  domain_eqb a b = true -> domain_eqb b c = true -> domain_eqb a c = true.
Proof.
  intros [H1 H2] [H3 H4] [H5 H6] E1 E2. unfold domain_eqb, types_eqb, functions_eqb in *. btrue.
  - eapply (eqv_trans _ string_eqb_equiv); eauto.
  - eapply (eqv_trans _ (set_eqb_equiv _ req_eqb_equiv)); eauto.
  - eapply (dict_eqb_trans _ string_eqb_equiv _ opt_str_equiv (d_types a) (d_types b)); auto.
  - eapply (eqv_trans _ (set_eqb_equiv _ const_eqb_equiv)); eauto.
  - eapply (eqv_trans _ (set_eqb_equiv _ atom_eqb_equiv)); eauto.
  - eapply (dict_eqb_trans _ atom_eqb_equiv _ opt_str_equiv (d_functions a) (d_functions b)); auto.
  - eapply (eqv_trans _ (set_eqb_equiv _ derived_eqb_equiv)); eauto.
  - eapply (eqv_trans _ (set_eqb_equiv _ action_eqb_equiv)); eauto.
Qed.

Definition problem_dicts_ok (p : problem) : Prop :=
  match p_domain p with Some d => dicts_ok d | None => True end.

Lemma problem_eqb_refl p : problem_dicts_ok p -> problem_eqb p p = true.
Proof.
  intros H. unfold problem_eqb, problem_dicts_ok in *. btrue.
  - apply String.eqb_refl.
  - destruct (p_domain p); simpl; auto. now apply domain_eqb_refl.
  - apply String.eqb_refl.
  - apply (eqv_refl _ (set_eqb_equiv _ req_eqb_equiv)).
  - apply (eqv_refl _ (set_eqb_equiv _ const_eqb_equiv)).
  - apply (eqv_refl _ (set_eqb_equiv _ form_eqb_equiv)).
  - apply form_eqb_refl.
  - apply (eqv_refl _ (option_eqb_equiv _ metric_eqb_equiv)).
Qed.
Lemma problem_eqb_sym a b : problem_dicts_ok a -> problem_dicts_ok b ->
  problem_eqb a b = true -> problem_eqb b a = true.
Proof.
  intros Ha Hb H. unfold problem_eqb, problem_dicts_ok in *. btrue.
  - now rewrite String.eqb_sym.
  - destruct (p_domain a), (p_domain b); simpl in *; auto. now apply domain_eqb_sym.
  - now rewrite String.eqb_sym.
  - now rewrite (eqv_sym _ (set_eqb_equiv _ req_eqb_equiv)).
  - now rewrite (eqv_sym _ (set_eqb_equiv _ const_eqb_equiv)).
  - now rewrite (eqv_sym _ (set_eqb_equiv _ form_eqb_equiv)).
  - now rewrite form_eqb_sym.
  - now rewrite (eqv_sym _ (option_eqb_equiv _ metric_eqb_equiv)).
Qed.
Lemma problem_eqb_trans a b c : problem_dicts_ok a -> problem_dicts_ok b -> problem_dicts_ok c ->
  problem_eqb a b = true -> problem_eqb b c = true -> problem_eqb a c = true.
Proof.
  intros Ha Hb Hc E1 E2. unfold problem_eqb, problem_dicts_ok in *. btrue.
  - eapply (eqv_trans _ string_eqb_equiv); eauto.
  - destruct (p_domain a) as [da|], (p_domain b) as [db|], (p_domain c) as [dc|]; simpl in *; auto; try discriminate.
    eapply (domain_eqb_trans da db dc); eauto.
  - eapply (eqv_trans _ string_eqb_equiv); eauto.
  - eapply (eqv_trans _ (set_eqb_equiv _ req_eqb_equiv)); eauto.
  - eapply (eqv_trans _ (set_eqb_equiv _ const_eqb_equiv)); eauto.
  - eapply (eqv_trans _ (set_eqb_equiv _ form_eqb_equiv)); eauto.
  - eapply form_eqb_trans; eauto.
  - eapply (eqv_trans _ (option_eqb_equiv _ metric_eqb_equiv)); eauto.
Qed.

Lemma plan_eqb_equiv : is_equiv plan_eqb.
Proof.
  apply (list_eqb_equiv (fun x y : string * list const =>
     String.eqb (fst x) (fst y) && list_eqb const_eqb (snd x) (snd y))).
  apply (lexe_equiv _ _ string_eqb_equiv (list_eqb_equiv _ const_eqb_equiv)).
Qed.

(** ** hashes *)
Lemma derived_hash_eq H a b : sets_ok (dp_cond a) -> sets_ok (dp_cond b) ->
  derived_eqb a b = true -> derived_hash H a = derived_hash H b.
Proof.
  unfold derived_eqb, derived_hash. intros. btrue.
  rewrite (form_hash_eq H (dp_pred a) (dp_pred b)), (form_hash_eq H (dp_cond a) (dp_cond b)); auto; exact I.
Qed.
Lemma metric_hash_eq H a b : sets_ok (me_expr a) -> sets_ok (me_expr b) ->
  metric_eqb a b = true -> metric_hash H a = metric_hash H b.
Proof.
  unfold metric_eqb, metric_hash. intros. btrue. apply String.eqb_eq in H3. rewrite H3.
  now rewrite (form_hash_eq H (me_expr a) (me_expr b)).
Qed.
Definition opt_sets_ok (o : option form) : Prop := match o with Some f => sets_ok f | None => True end.
Lemma action_hash_eq H a b :
  opt_sets_ok (a_pre a) -> opt_sets_ok (a_eff a) -> opt_sets_ok (a_pre b) -> opt_sets_ok (a_eff b) ->
  action_eqb a b = true -> action_hash H a = action_hash H b.
Proof.
  unfold action_eqb, action_hash. intros. btrue. apply String.eqb_eq in H4. rewrite H4.
  rewrite (map_hash_eq _ _ (term_hash_eq H) _ _ H7).
  assert (O : forall x y, opt_sets_ok x -> opt_sets_ok y -> option_eqb form_eqb x y = true ->
     match x with Some f => form_hash H f | None => h_none H end
     = match y with Some f => form_hash H f | None => h_none H end).
  { intros [x|] [y|]; simpl; auto; try discriminate. apply form_hash_eq. }
  rewrite (O (a_pre a) (a_pre b)), (O (a_eff a) (a_eff b)); auto.
Qed.
