(** Derived predicates of a parsed domain (C27) and the subtype loop (C28). *)
From Coq Require Import String List Bool Arith Lia Relations.
From Verif Require Import Py Names Reqs Logic Validation Core Lexer TypedList UpdateTags Parser.
From Verif Require Import Built Py_facts Logic_facts Names_facts CoreEq_facts Spec_Parse
  TypedList_facts Parse_facts GD_facts NF_facts Spec_Derived Derived_facts Domain_facts.
Import ListNotations.
Open Scope string_scope.
Open Scope list_scope.

Lemma dict_set_Forall {V} (P : string * V -> Prop) k v d :
  Forall P d -> P (k, v) -> Forall P (dict_set String.eqb k v d).
Proof.
  induction 1 as [|[a w] d H F IH]; intros K; cbn [dict_set]; [auto|].
  destruct (String.eqb_spec k a) as [->|]; auto.
Qed.
Lemma dict_of_list_Forall {V} (P : string * V -> Prop) l :
  Forall P l -> Forall P (dict_of_list String.eqb l).
Proof.
  unfold dict_of_list. assert (G : forall d, Forall P d -> Forall P l ->
    Forall P (fold_left (fun d kv => dict_set String.eqb (fst kv) (snd kv) d) l d)).
  { induction l as [|[a w] l IH]; intros d D L; simpl; auto. inversion L; subst.
    apply IH; auto. now apply dict_set_Forall. }
  intros. now apply G.
Qed.

(** the parameter table after an action: keys are names, and they are those of the action *)
Lemma action_params_table l st st' a : action_def l st = (st', Ok a) ->
  Forall (fun kv => v_name (snd kv) = fst kv) (s_params st')
  /\ a_params a = map (fun kv => TVar (snd kv)) (s_params st').
Proof.
  intros H. apply action_def_st in H as (n & ps & body & vs & b & -> & P & B & K).
  unfold mk_action in K. apply bind_Ok in K as (n' & _ & K). inversion K; subst a. clear K.
  apply action_parameters_st in P as (tl & vars & T & V & -> & ->). cbn [s_params set_params a_params].
  split; [|reflexivity].
  apply dict_of_list_Forall. pose proof (typed_vars_ok _ _ _ T V) as F. clear - F.
  induction F as [|p v tl vars [-> _] F IH]; simpl; constructor; auto.
Qed.

Definition param_names (a : action) : list string := map t_name (a_params a).
Lemma action_eqb_names a b : action_eqb a b = true -> param_names a = param_names b.
Proof.
  unfold action_eqb, param_names. rewrite !andb_true_iff. intros (((_ & H) & _) & _).
  revert H. generalize (a_params b). induction (a_params a) as [|t ts IH]; intros [|u us]; simpl;
    try discriminate; auto.
  rewrite andb_true_iff. intros [E H]. rewrite (IH us H). f_equal.
  destruct t as [n o|v], u as [n' o'|v']; cbn in E; try discriminate; cbn.
  - now apply String.eqb_eq.
  - unfold var_eqb in E. rewrite andb_true_iff in E. now apply String.eqb_eq.
Qed.

(** ** the derived predicates of a parsed domain *)
Definition no_params (st : dstate) (xs : list (action + derived)) (ns : list string) : Prop :=
  forall n, In n (map fst (s_params st)) -> In n ns \/ exists a, In (inl a) xs /\ In n (param_names a).

Lemma params_table_ok st : Forall (fun kv => v_name (snd kv) = fst kv) (s_params st) -> params_ok st.
Proof.
  intros F n v H. apply dict_get_In in H as (k & H & E). apply String.eqb_eq in E. subst k.
  rewrite Forall_forall in F. apply (F _ H).
Qed.

Lemma sections_params {A} (f : list sexp -> M A) o st st' r :
  (forall l s s' a, f l s = (s', Ok a) -> s_params s' = s_params s) ->
  optM f o st = (st', Ok r) -> s_params st' = s_params st.
Proof.
  intros F H. apply optM_Ok in H. destruct o as [l|]; [|destruct H; now subst].
  destruct H as (a & H & _). eauto.
Qed.

Lemma section_incl k l o r : section k l = (o, r) -> incl r l.
Proof.
  unfold section. destruct l as [|[|[|k' body]] l'];
    try (intros H; inversion H; subst; apply incl_refl).
  destruct (is_kw k k'); intros H; inversion H; subst; [apply incl_tl, incl_refl|apply incl_refl].
Qed.
Lemma parsed_derived_scoped s st st' dom dp :
  Forall (fun kv => v_name (snd kv) = fst kv) (s_params st) ->
  parse_domain s st = (st', Ok dom) -> In dp (d_derived dom) ->
  (forall t, In t (dp_terms dp) -> t_tags t = [] ->
     ~ In (t_name t) (map fst (s_params st)) /\
     forall a, In a (d_actions dom) -> ~ In (t_name t) (map t_name (a_params a))) ->
  scoped (head_env (dp_terms dp)) (dp_cond dp)
  /\ exists n l0 h x, domain_text s n l0 /\ In (section_sx ":derived" [h; x]) l0
     /\ (exists sti cond, gd (domain_ctx sti) x = Ok cond /\ strip (dp_cond dp) = strip cond)
     /\ (exists ts, atomic_formula_skeleton h = Ok (dp_name dp, ts)
          /\ map strip_term (dp_terms dp) = map strip_term ts).
Proof.
  intros P0 H D U. apply parse_domain_inv in H as (n & l0 & Tx & H).
  apply domain_rule_inv in H as (o1 & l1 & st1 & rs & o2 & l2 & st2 & ty & o3 & l3 & st3 & cs & o4
    & l4 & st4 & ps & o5 & l5 & fs & st6 & xs & S1 & H1 & S2 & H2 & S3 & H3 & S4 & H4 & S5 & _ & H6 & _ & K).
  apply sections_params in H1.
  2:{ intros l a b c R. apply requirements_st in R as (? & _ & _ & ->). reflexivity. }
  apply sections_params in H2.
  2:{ intros l a b c R. apply types_st in R as (-> & _). reflexivity. }
  apply sections_params in H3.
  2:{ intros l a b c R. apply constants_st in R as (? & _ & -> & _). reflexivity. }
  apply sections_params in H4.
  2:{ intros l a b c R. apply predicates_st in R as (_ & _ & ->). reflexivity. }
  assert (E : s_params st4 = s_params st) by congruence. clear H1 H2 H3 H4.
  apply mk_domain_inv in K as (_ & _ & _ & _ & _ & _ & _ & Kd & _ & Ka & _).
  rewrite Kd in D. apply dedup_In in D. apply in_flat_map in D as (x & Dx & Dd).
  destruct x as [|dp']; [destruct Dd|]. destruct Dd as [->|[]].
  apply mapM_runs in H6.
  set (I := fun sti => Forall (fun kv => v_name (snd kv) = fst kv) (s_params sti)
                       /\ no_params sti xs (map fst (s_params st))).
  destruct (runs_In structure_def I _ _ _ _ (@inr action derived dp) H6)
    as (y & sti & sti' & [Ip In_] & Hy & F); auto.
  - split; [now rewrite E|]. intros m Hm. rewrite E in Hm. auto.
  - intros y a b z [Ip In_] F Z. apply structure_def_st in F as [F|F].
    + destruct F as (body & ac & -> & -> & F). apply action_params_table in F as [F1 F2].
      split; [exact F1|]. intros m Hm. right. exists ac. split; auto.
      unfold param_names. rewrite F2, map_map. cbn [t_name].
      apply in_map_iff in Hm as (kv & <- & Hkv). apply in_map_iff. exists kv.
      rewrite Forall_forall in F1. split; auto.
    + destruct F as (body & ac & -> & -> & F). apply derived_def_st in F as [-> _]. split; auto.
  - apply structure_def_st in F as [F|F]; [destruct F as (? & ? & _ & F & _); discriminate|].
    destruct F as (body & d' & -> & [= <-] & F).
    pose proof (derived_def_st _ _ _ _ F) as (-> & h & x & ->).
    destruct (derived_scoped _ _ _ _ _ (params_table_ok _ Ip) F) as (R1 & (cond & R2 & R3) & R4).
    + intros t Ht Tg. destruct (U t Ht Tg) as [U1 U2]. unfold stale_tags.
      destruct (dict_get String.eqb (t_name t) (s_params sti)) as [v|] eqn:G; auto.
      apply dict_get_In in G as (k & G & Q). apply String.eqb_eq in Q. subst k.
      destruct (In_ (t_name t)) as [J|(a & Ja & Jn)].
      * apply in_map_iff. exists (t_name t, v). auto.
      * contradiction.
      * exfalso. assert (M : memb action_eqb a (d_actions dom) = true).
        { rewrite Ka, memb_dedup by apply action_eqb_equiv. apply memb_In. exists a.
          split; [|apply (eqv_refl _ action_eqb_equiv)].
          apply in_flat_map. exists (inl a). simpl. auto. }
        apply memb_In in M as (b & Hb & Eb). apply (U2 b Hb).
        apply action_eqb_names in Eb. unfold param_names in *. now rewrite <- Eb.
    + split; auto. exists n, l0, h, x. split; auto. split; [|split; [eauto|exact R4]].
      eapply section_incl; [exact S1|]. eapply section_incl; [exact S2|].
      eapply section_incl; [exact S3|]. eapply section_incl; [exact S4|].
      eapply section_incl; [exact S5|]. exact Hy.
Qed.

(** ** the subtype loop *)
Section Subtype.
  Variable types : option types_dict.
  Variable left : string.
  Variable right : list string.
  Notation step := (subtype_step types left right).
  Definition parent_of : option string :=
    match types with
    | Some d => match dict_get String.eqb left d with Some v => v | None => None end
    | None => None
    end.

  Lemma check_subtype_eq : check_subtype types left right =
    if memb String.eqb left right then Ok tt
    else match types with
         | None => Err RuntimeError
         | Some _ => match parent_of with
                     | None => Err PDDLParsingError
                     | Some p => if memb String.eqb p right then Ok tt else Err Diverges
                     end
         end.
  Proof.
    unfold check_subtype, parent_of. rewrite loop_steps.
    change (2 ^ 1) with 2. cbn [steps]. unfold subtype_step.
    destruct (memb String.eqb left right); auto.
    destruct types as [d|]; auto.
    destruct (match dict_get String.eqb left d with Some v => v | None => None end) as [p|] eqn:E;
      auto.
    destruct (memb String.eqb p right) eqn:Mp; rewrite ?E, ?Mp; auto.
  Qed.

End Subtype.

(** a loop stuck on the parent stays there *)
Lemma subtype_stuck d left right p : parent_of (Some d) left = Some p ->
  memb String.eqb p right = false ->
  forall n, steps (subtype_step (Some d) left right) n (Some p) = inl (Some p).
Proof.
  intros P N n. induction n; cbn [steps]; auto. cbn [subtype_step]. rewrite N.
  unfold parent_of in P. rewrite P. exact IHn.
Qed.
Lemma check_subtype_steps types left right :
  match check_subtype types left right with
  | Err Diverges => forall n, exists s, steps (subtype_step types left right) n (Some left) = inl s
  | r => exists n, steps (subtype_step types left right) n (Some left) = inr r
  end.
Proof.
  rewrite check_subtype_eq. destruct (memb String.eqb left right) eqn:ML.
  { exists 1. cbn [steps subtype_step]. now rewrite ML. }
  destruct types as [d|].
  2:{ exists 1. cbn [steps subtype_step]. now rewrite ML. }
  destruct (parent_of (Some d) left) as [p|] eqn:P.
  - destruct (memb String.eqb p right) eqn:Mp.
    + exists 2. cbn [steps subtype_step]. rewrite ML. unfold parent_of in P. rewrite P.
      cbn [subtype_step]. now rewrite Mp.
    + intros [|n]; [cbn [steps]; eauto|]. exists (Some p). cbn [steps]. cbn [subtype_step].
      rewrite ML. pose proof P as P'. unfold parent_of in P'. rewrite P'.
      apply subtype_stuck; auto.
  - exists 2. cbn [steps subtype_step]. rewrite ML. unfold parent_of in P. now rewrite P.
Qed.

Lemma steps_ends {S R} (step : S -> S + R) n : forall s r, steps step n s = inr r -> ends step s r.
Proof.
  induction n; cbn [steps]; intros s r H; [discriminate|].
  destruct (step s) as [s'|r'] eqn:E; [eapply ends_later; eauto|inversion H; subst].
  now apply ends_now.
Qed.
Lemma ends_steps {S R} (step : S -> S + R) s r : ends step s r -> exists n, steps step n s = inr r.
Proof.
  induction 1 as [s r H|s s' r H _ [n IH]]; [exists 1|exists (Datatypes.S n)]; cbn [steps]; now rewrite H.
Qed.
Lemma never_forever {S R} (step : S -> S + R) : forall s,
  (forall n, exists s', steps step n s = inl s') -> runs_forever step s.
Proof.
  cofix CH. intros s H. destruct (step s) as [s'|r] eqn:E.
  - apply rf with s'; auto. apply CH. intros n. destruct (H (Datatypes.S n)) as (x & Hx).
    cbn [steps] in Hx. rewrite E in Hx. eauto.
  - exfalso. destruct (H 1) as (x & Hx). cbn [steps] in Hx. rewrite E in Hx. discriminate.
Qed.
Lemma forever_not_ends {S R} (step : S -> S + R) s r : ends step s r -> ~ runs_forever step s.
Proof.
  induction 1; intros F; inversion F; subst; [congruence|]. apply IHends. congruence.
Qed.

(** [check_subtype] is the result of the loop *)
Lemma subtype_loop types left right r : r <> Err Diverges ->
  (check_subtype types left right = r <-> ends (subtype_step types left right) (Some left) r).
Proof.
  intros N. pose proof (check_subtype_steps types left right) as H. split.
  - intros <-. destruct (check_subtype types left right) as [|[]];
      try (destruct H as (n & H); eapply steps_ends; eassumption). contradiction.
  - intros E. apply ends_steps in E as (n & E).
    assert (D : forall q, (exists m, steps (subtype_step types left right) m (Some left) = inr q) ->
                q = r).
    { intros q (m & Q). apply (steps_mono _ _ (max n m)) in E; [|lia].
      apply (steps_mono _ _ (max n m)) in Q; [|lia]. congruence. }
    destruct (check_subtype types left right) as [|[]]; auto.
    destruct (H n) as (x & Hx). congruence.
Qed.
Lemma subtype_loop_forever types left right :
  check_subtype types left right = Err Diverges
  <-> runs_forever (subtype_step types left right) (Some left).
Proof.
  pose proof (check_subtype_steps types left right) as H. split.
  - intros E. rewrite E in H. now apply never_forever.
  - intros F. destruct (check_subtype types left right) as [|[]] eqn:E; auto; exfalso;
      (eapply forever_not_ends; [|exact F]); destruct H as (n & H); eapply steps_ends; exact H.
Qed.

Lemma check_subtypes_Ok d left right : NoDup (map fst d) ->
  check_subtypes (Some d) left right = Ok tt <->
  right = [] \/ forall g, In g left -> In g right \/ exists p, In (g, Some p) d /\ In p right.
Proof.
  intros N. assert (G : forall g, check_subtype (Some d) g right = Ok tt <->
    In g right \/ exists p, In (g, Some p) d /\ In p right).
  { intros g. rewrite check_subtype_eq. cbn [parent_of].
    destruct (memb String.eqb g right) eqn:Mg.
    { apply memb_string_In in Mg. tauto. }
    assert (Ng : ~ In g right) by (rewrite <- memb_string_In; congruence).
    destruct (dict_get String.eqb g d) as [[p|]|] eqn:D.
    - apply dict_get_In in D as (k & D & E). apply String.eqb_eq in E. subst k.
      destruct (memb String.eqb p right) eqn:Mp.
      + apply memb_string_In in Mp. split; eauto.
      + assert (Np : ~ In p right) by (rewrite <- memb_string_In; congruence).
        split; [discriminate|]. intros [H|(q & Hq & H)]; [contradiction|].
        assert (q = p); [|subst; contradiction].
        apply NoDupE_string in N.
        pose proof (dict_get_In_iff _ string_eqb_equiv _ _ _ N Hq) as X.
        pose proof (dict_get_In_iff _ string_eqb_equiv _ _ _ N D) as Y. congruence.
    - split; [discriminate|]. intros [H|(q & Hq & H)]; [contradiction|].
      apply NoDupE_string in N.
      pose proof (dict_get_In_iff _ string_eqb_equiv _ _ _ N Hq) as X. congruence.
    - split; [discriminate|]. intros [H|(q & Hq & H)]; [contradiction|].
      apply NoDupE_string in N.
      pose proof (dict_get_In_iff _ string_eqb_equiv _ _ _ N Hq) as X. congruence. }
  unfold check_subtypes. destruct right as [|r0 right]; [tauto|].
  rewrite iterR_Ok. rewrite Forall_forall. setoid_rewrite G. split; auto.
  intros [H|H]; [discriminate|auto].
Qed.
Lemma check_subtypes_sound d left right : NoDup (map fst d) ->
  check_subtypes (Some d) left right = Ok tt ->
  right = [] \/ forall g, In g left -> exists p, In p right /\ descendant_or_self d g p.
Proof.
  intros N H. apply check_subtypes_Ok in H as [H|H]; auto. right. intros g Hg.
  destruct (H g Hg) as [K|(p & Hp & K)].
  - exists g. split; auto. apply rt_refl.
  - exists p. split; auto. now apply rt_step.
Qed.
