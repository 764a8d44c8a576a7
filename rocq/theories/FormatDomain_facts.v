(** What the domain parser returns, in the terms of Spec_Domain.v. *)
From Coq Require Import String List Bool Arith Lia ZArith.
From Verif Require Import Py Names Reqs Logic Validation Core Lexer TypedList UpdateTags Parser.
From Verif Require Import Built Spec Spec_Core Spec_Parse Spec_Print Spec_Text Spec_Domain Spec_Format.
From Verif Require Spec_Derived.
From Verif Require Import Py_facts Logic_facts Ops_facts Built_facts Names_facts Order_facts CoreEq_facts Validation_facts
  Core_facts TypedList_facts Parse_facts GD_facts Derived_facts Domain_facts Derived_facts2 Feature_facts Action_facts
  MeaningText_facts Loose_facts Format_facts.
Import ListNotations.
Open Scope string_scope.
Open Scope list_scope.

Lemma legal_function_total : legal_function "total-cost".
Proof. apply parse_function_Ok. vm_compute. reflexivity. Qed.
Lemma dedup_length_NoDupE {A} (eqb : A -> A -> bool) l : is_equiv eqb -> length (dedup eqb l) = length l -> NoDupE eqb l.
Proof.
  intros E. assert (Len : forall seen l0, length (dedup_from eqb seen l0) <= length l0).
  { intros seen l0. revert seen. induction l0; simpl; auto. intros.
    destruct (memb eqb a seen); simpl; auto. apply le_n_S. auto. }
  assert (X : forall l0 seen, length (dedup_from eqb seen l0) = length l0 ->
               NoDupE eqb l0 /\ forall x, In x l0 -> memb eqb x seen = false).
  { induction l0 as [|x l0 IH]; simpl; intros seen H; [split; [constructor|tauto]|].
    destruct (memb eqb x seen) eqn:M.
    - pose proof (Len seen l0). lia.
    - simpl in H. apply eq_add_S in H. apply IH in H as [H1 H2]. split.
      + constructor; auto. apply memb_false. intros y Hy. specialize (H2 y Hy). simpl in H2.
        apply orb_false_iff in H2 as [H2 _]. now rewrite (eqv_sym _ E).
      + intros y [<-|Hy]; auto. specialize (H2 y Hy). simpl in H2. now apply orb_false_iff in H2. }
  intros H. now apply X in H.
Qed.

(** ** predicates and functions *)
Lemma skeleton_ok s p : atomic_formula_skeleton s = Ok p -> predicate_expressible p.
Proof.
  destruct s as [[]|[|[[]|] l]]; cbn; try discriminate. intros H.
  apply bind_Ok in H as (tl & T & H). apply bind_Ok in H as (vs & V & H). apply bind_Ok in H as (f & P & H).
  apply mk_pred_iff in P as (-> & L & _). injection H as <-. destruct (parsed_vars _ _ _ T V) as (A & B & C).
  exists vs. auto.
Qed.
Definition fun_parsed (a : atom) : Prop :=
  exists vs, snd a = map TVar vs /\ legal_function (fst a) /\ vars_ok vs /\ (fst a = "total-cost" -> vs = []).
Lemma function_skeleton_ok s a : atomic_function_skeleton s = Ok a -> fun_parsed a.
Proof.
  destruct s as [[]|[|[[]|] l]]; cbn; try discriminate. intros H.
  apply bind_Ok in H as (tl & T & H). destruct (String.eqb_spec s "total-cost") as [->|N].
  - injection H as <-. exists []. split; auto. split; [apply legal_function_total|]. split; auto.
    split; [constructor|]. split; [exists [], []; auto|]. intros v w [].
  - apply bind_Ok in H as (vs & V & H). apply bind_Ok in H as (f & P & H).
    unfold mk_numfun in P. apply bind_Ok in P as (n' & Ln & P).
    apply parse_function_Ok' in Ln as [-> Ln]. injection P as <-. injection H as <-.
    exists vs. split; auto. split; auto. split; [eapply parsed_vars; eauto|]. cbn. congruence.
Qed.
Lemma tl_functions_written l : forall seen toks, tl_functions seen l = Ok toks ->
  exists groups tail, toks = typed_tokens groups tail
    /\ Forall (fun g => snd g = ["number"]) groups
    /\ (forall a, In a (map fst (assigned groups tail)) -> exists s, In s l /\ atomic_function_skeleton s = Ok a).
Proof.
  assert (Z : forall n l, length l <= n -> forall seen toks, tl_functions seen l = Ok toks ->
    exists groups tail, toks = typed_tokens groups tail
      /\ Forall (fun g => snd g = ["number"]) groups
      /\ (forall a, In a (map fst (assigned groups tail)) -> exists s, In s l /\ atomic_function_skeleton s = Ok a)).
  2:{ intros seen toks. now apply (Z (length l)). }
  clear l. induction n as [|n IH]; intros l Le seen toks H.
  { destruct l; [|cbn in Le; lia]. injection H as <-. exists [], []. repeat split; auto. intros a []. }
  assert (Item : forall s r toks, tl_functions true r = Ok toks -> length r <= n ->
     forall f, atomic_function_skeleton s = Ok f ->
     exists groups tail, IItem f :: toks = typed_tokens groups tail
      /\ Forall (fun g => snd g = ["number"]) groups
      /\ (forall a, In a (map fst (assigned groups tail)) -> exists s', In s' (s :: r) /\ atomic_function_skeleton s' = Ok a)).
  { intros s r t T Lr f F. destruct (IH r Lr _ _ T) as (groups & tail & -> & N & A).
    destruct groups as [|[items gs] groups].
    - exists [], (f :: tail). split; [reflexivity|]. split; auto. cbn. intros a [<-|X]; [exists s; auto|].
      destruct (A a X) as (s' & S1 & S2). exists s'. auto.
    - exists ((f :: items, gs) :: groups), tail. split; [reflexivity|]. split.
      + inversion N; subst. constructor; auto.
      + intros a X. cbn in X. destruct X as [<-|X]; [exists s; cbn; auto|].
        destruct (A a X) as (s' & S1 & S2). exists s'. cbn; auto. }
  destruct l as [|s r]; [exact (IH [] (Nat.le_0_l n) seen toks H)|]. cbn in Le.
  assert (D : (exists o g r', s = SAtom (TOp o) /\ r = SAtom (TWord g) :: r') \/
     tl_functions seen (s :: r) = (let* f := atomic_function_skeleton s in let* ts := tl_functions true r in Ok (IItem f :: ts))).
  { destruct s as [[]|]; auto. destruct r as [|[[]|] r]; auto. left. eauto 8. }
  destruct D as [(o & g & r' & -> & ->)|E].
  - cbn in H. destruct (String.eqb o "-" && seen && String.eqb g "number") eqn:B; [|discriminate].
    apply bind_Ok in H as (ts & T & H). injection H as <-. cbn in Le.
    destruct (IH r' ltac:(lia) _ _ T) as (groups & tail & -> & N & A).
    apply andb_true_iff in B as [_ B]. apply String.eqb_eq in B. subst g.
    exists (([], ["number"]) :: groups), tail. split; [reflexivity|]. split; [constructor; auto|].
    intros a X. cbn in X. destruct (A a X) as (s' & S1 & S2). exists s'. cbn. auto.
  - rewrite E in H. apply bind_Ok in H as (f & F & H). apply bind_Ok in H as (ts & T & H). injection H as <-.
    eapply Item; eauto. lia.
Qed.
Lemma legal_number_type : legal_type "number".
Proof. apply parse_type_Ok. vm_compute. reflexivity. Qed.
Lemma functions_ok l fs : functions_section l = Ok fs ->
  NoDupE atom_eqb (map fst fs)
  /\ forall f, In f fs -> (exists s, In s l /\ atomic_function_skeleton s = Ok (fst f))
       /\ (snd f = None \/ snd f = Some "number").
Proof.
  unfold functions_section. destruct l as [|s l]; [discriminate|]. intros H.
  apply bind_Ok in H as (toks & T & H). apply tl_functions_written in T as (groups & tail & -> & N & A).
  rewrite parse_typed_list_all in H. rewrite (add_all_nodup atom_eqb atom_eqb_equiv) in H.
  - cbn [app] in H. destruct (Nat.eqb_spec (length (dedup atom_eqb (map fst (assigned groups tail)))) (length (assigned groups tail))) as [E|];
      [|discriminate]. cbn [bind] in H. unfold typed_list_of_names in H. cbn [ti_items] in H.
    assert (M : mapR (fun kv : atom * list string => match snd kv with [] => Ok (fst kv, None)
       | [g] => Ok (fst kv, Some g) | _ => Err ValueError end) (assigned groups tail)
       = Ok (map (fun kv => (fst kv, hd_error (snd kv))) (assigned groups tail))
       /\ Forall (fun kv => snd kv = [] \/ snd kv = ["number"]) (assigned groups tail)).
    { assert (F : Forall (fun kv => snd kv = [] \/ snd kv = ["number"]) (assigned groups tail)).
      { apply Forall_forall. intros [a gs] I. unfold assigned in I. apply in_app_or in I as [I|I].
        - apply in_flat_map in I as ([it ty] & G & I). apply in_map_iff in I as (x & [= <- <-] & _).
          rewrite Forall_forall in N. specialize (N _ G). cbn in N. subst. now right.
        - apply in_map_iff in I as (x & [= <- <-] & _). now left. }
      split; auto. clear - F. induction F as [|[a gs] l' [X|X] F IH]; cbn in *; subst; auto; rewrite IH; reflexivity. }
    destruct M as [M F]. rewrite M in H. cbn in H. injection H as <-. split.
    + rewrite map_map. rewrite (map_ext _ fst) by reflexivity.
      apply dedup_length_NoDupE; [apply atom_eqb_equiv|]. now rewrite E, map_length.
    + intros f I. apply in_map_iff in I as ([a gs] & <- & I). cbn. split.
      * apply A. apply in_map_iff. exists (a, gs). auto.
      * rewrite Forall_forall in F. destruct (F _ I) as [X|X]; cbn in X; subst; cbn; auto.
  - intros a gs I. split; auto. unfold assigned in I. apply in_app_or in I as [I|I].
    + apply in_flat_map in I as ([it ty] & G & I). apply in_map_iff in I as (x & [= <- <-] & _).
      rewrite Forall_forall in N. specialize (N _ G). cbn in N. subst. constructor; auto using legal_number_type.
    + apply in_map_iff in I as (x & [= <- <-] & _). constructor.
  - apply assigned_nodups.
  - constructor.
Qed.

(** ** the state of the parser at each definition *)
Record st_for (d : domain) (st : dstate) : Prop := {
  sf_ext : forall r, In r (s_ext st) -> In r (extend_reqs (d_reqs d));
  sf_consts : map snd (s_constants st) = d_constants d;
  sf_const_ok : Forall (fun kv => fst (snd kv) = fst kv /\ legal_name (fst (snd kv))
     /\ (forall t, snd (snd kv) = Some t -> legal_type t)) (s_constants st);
  sf_params : Forall (fun kv => v_name (snd kv) = fst kv) (s_params st);
  sf_params_keys : NoDup (map fst (s_params st));
  sf_params_ok : vars_ok (map snd (s_params st));
  sf_preds : forall n def, dict_get String.eqb n (s_predicates st) = Some def ->
     fst def = n /\ predicate_expressible def /\ memb atom_eqb def (d_predicates d) = true;
  sf_types : forall t, s_types st = Some t -> NoDup (map fst t) /\ norm_types t = d_types d /\ types_legal t
}.
Lemma st_for_wf d st : st_for d st -> st_wf st.
Proof.
  intros H. split; [|apply (sf_params _ _ H)].
  eapply Forall_impl; [|apply (sf_const_ok _ _ H)]. now intros kv [E _].
Qed.

Lemma ul_app a b : ul (a ++ b) -> ul a /\ ul b.
Proof.
  induction a as [|v a IH]; cbn; auto. intros [A B]. apply IH in B as [B1 B2]. repeat split; auto.
  intros T. specialize (A T). now apply Forall_app in A.
Qed.
Lemma ul_drop a x b : ul (a ++ x :: b) -> ul (a ++ b).
Proof.
  induction a as [|v a IH]; cbn; [tauto|]. intros [A B]. split; auto. intros T. specialize (A T).
  apply Forall_app in A as [A1 A2]. inversion A2; subst. apply Forall_app. auto.
Qed.
Lemma ul_tags vs ws : Forall2 (fun v w : var => v_tags v = [] <-> v_tags w = []) vs ws -> ul vs -> ul ws.
Proof.
  induction 1 as [|v w vs ws E F IH]; cbn; auto. intros [A B]. split; auto. intros T. apply E in T. specialize (A T).
  clear - A F. induction F as [|a b vs ws E F IH]; auto. inversion A; subst. constructor; auto. now apply E.
Qed.
Lemma dict_set_old {V} k (v : V) d : memb String.eqb k (map fst d) = true ->
  Forall2 (fun kv kv' => kv' = kv \/ (fst kv = k /\ kv' = (k, v))) d (dict_set String.eqb k v d).
Proof.
  induction d as [|[k' w] d IH]; cbn; [discriminate|].
  assert (Id : forall l : list (string * V), Forall2 (fun kv kv' => kv' = kv \/ (fst kv = k /\ kv' = (k, v))) l l).
  { clear. induction l; constructor; auto. }
  destruct (String.eqb_spec k k') as [<-|N]; cbn; intros H; constructor; auto.
Qed.
Lemma params_ul rest : forall d : list (string * var),
  Forall (fun kv => v_name (snd kv) = fst kv) d ->
  (forall v w, In v (map snd d ++ rest) -> In w (map snd d ++ rest) -> v_name v = v_name w ->
     (v_tags v = [] <-> v_tags w = [])) ->
  ul (map snd d ++ rest) ->
  ul (map snd (fold_left (fun d kv => dict_set String.eqb (fst kv) (snd kv) d) (map (fun v => (v_name v, v)) rest) d)).
Proof.
  induction rest as [|x rest IH]; intros d K S U; cbn [map fold_left]; [now rewrite app_nil_r in U|].
  cbn [fst snd]. destruct (memb String.eqb (v_name x) (map fst d)) eqn:M.
  - pose proof (dict_set_old (v_name x) x d M) as F.
    assert (Sub : forall v, In v (map snd (dict_set String.eqb (v_name x) x d) ++ rest) -> In v (map snd d ++ x :: rest)).
    { intros v V. apply in_app_or in V as [V|V]; apply in_or_app; [|right; now right].
      apply in_map_iff in V as (kv & <- & V). clear - F V. induction F as [|a b l l' E F IH]; [destruct V|].
      destruct V as [->|V].
      - destruct E as [->|[_ ->]]; [left; now left|right; now left].
      - destruct (IH V) as [Y|Y]; [left; now right|now right]. }
    apply IH.
    + clear - F K. induction F as [|a b l l' E F IH]; constructor; inversion K; subst; auto.
      destruct E as [->|[_ ->]]; auto.
    + intros v w V W. apply S; auto.
    + apply ul_drop in U. eapply ul_tags; [|exact U]. apply Forall2_app.
      2:{ clear. induction rest; constructor; auto. tauto. }
      assert (S' : forall kv, In kv d -> fst kv = v_name x -> (v_tags (snd kv) = [] <-> v_tags x = [])).
      { intros kv V N. rewrite Forall_forall in K. apply S.
        - apply in_or_app. left. now apply in_map.
        - apply in_or_app. right. now left.
        - rewrite (K _ V). exact N. }
      clear - F S'. induction F as [|a b l l' E F IH]; cbn; constructor.
      * destruct E as [->|[N ->]]; [tauto|]. apply S'; auto. now left.
      * apply IH. intros kv V. apply S'. now right.
  - rewrite dict_set_new by exact M. apply IH.
    + apply Forall_app. split; auto.
    + rewrite map_app. cbn [map snd]. rewrite <- app_assoc. exact S.
    + rewrite map_app. cbn [map snd]. rewrite <- app_assoc. exact U.
Qed.
Lemma action_parameters_ok l st st' vs : action_parameters l st = (st', Ok vs) ->
  exists ps, st' = set_params ps st /\ vs = map (fun kv => TVar (snd kv)) ps
    /\ Forall (fun kv => v_name (snd kv) = fst kv) ps /\ NoDup (map fst ps) /\ vars_ok (map snd ps).
Proof.
  intros H. apply action_parameters_st in H as (tl & vars & T & V & -> & ->).
  pose proof (parsed_vars _ _ _ T V) as (A & B & C). pose proof (typed_vars_ok _ _ _ T V) as F.
  assert (E : combine (map fst tl) vars = map (fun v => (v_name v, v)) vars).
  { clear - F. induction F as [|p v tl vars [-> _] F IH]; cbn; congruence. }
  rewrite E. eexists. split; [reflexivity|]. split; [reflexivity|].
  assert (K : Forall (fun kv : string * var => v_name (snd kv) = fst kv /\ In (snd kv) vars)
     (dict_of_list String.eqb (map (fun v => (v_name v, v)) vars))).
  { apply dict_of_list_Forall. apply Forall_forall. intros kv I. apply in_map_iff in I as (v & <- & I). auto. }
  split; [eapply Forall_impl; [|exact K]; now intros kv [X _]|].
  split; [apply NoDupE_string, dict_of_list_NoDupE, string_eqb_equiv|].
  assert (I : forall v, In v (map snd (dict_of_list String.eqb (map (fun v => (v_name v, v)) vars))) -> In v vars).
  { intros v X. apply in_map_iff in X as (kv & <- & X). rewrite Forall_forall in K. apply (K _ X). }
  split; [|split].
  - apply Forall_forall. intros v X. rewrite Forall_forall in A. auto.
  - apply ul_spec. unfold dict_of_list. apply (params_ul vars []); auto.
    + intros v w X Y Q. specialize (C v w X Y Q). destruct (v_tags v) as [|g l0], (v_tags w) as [|h m]; try tauto; split; try discriminate.
      * destruct (proj2 (C h)). now left.
      * destruct (proj1 (C g)). now left.
    + now apply ul_spec.
  - intros v w X Y. apply C; auto.
Qed.
Lemma action_for d l st st' a : st_for d st -> action_def l st = (st', Ok a) -> st_for d st'.
Proof.
  intros [A B C D E G P T] H. apply action_def_st in H as (n & ps & body & vs & b & _ & H & _).
  apply action_parameters_ok in H as (qs & -> & _ & K & N & V). now split.
Qed.
Lemma structure_for d y st st' z : st_for d st -> structure_def y st = (st', Ok z) -> st_for d st'.
Proof.
  intros W F. apply structure_def_st in F as [(body & ac & _ & _ & F)|(body & ac & _ & _ & F)].
  - eapply action_for; eauto.
  - apply derived_def_st in F as [-> _]. exact W.
Qed.
Lemma types_ok l st st' t : types_section l st = (st', Ok t) -> NoDup (map fst t) /\ ~ In "object" (map fst t).
Proof.
  intros H. unfold types_section, bindM, ret, reads, modify in H.
  destruct (typed_list_name l) as [tl|] eqn:T; [|discriminate].
  destruct (check _ (PDDLMissingRequirementError TYPING)); [|discriminate].
  destruct (check _ AssertionError); [|discriminate]. injection H as _ <-.
  rewrite map_map. cbn [fst]. apply typed_list_name_iff in T as (groups & tail & _ & -> & L & N).
  rewrite map_map. cbn [fst]. rewrite (map_ext _ fst) by reflexivity. split; auto.
  intros I. apply in_map_iff in I as ([x gs] & E & I). cbn in E. subst x. apply L in I as [[_ I] _].
  apply I. vm_compute. auto 20.
Qed.
Lemma skeletons_In l ps p : mapR atomic_formula_skeleton l = Ok ps -> In p ps ->
  exists s, In s l /\ atomic_formula_skeleton s = Ok p.
Proof.
  intros M. apply mapR_Ok in M. induction M as [|s q l ps E M IH]; intros I; [destruct I|].
  destruct I as [->|I]; [exists s; split; [now left|auto]|].
  destruct (IH I) as (s' & S1 & S2). exists s'. split; [now right|auto].
Qed.
Record parsed_parts (l : list sexp) (d : domain) : Prop := {
  pp_built : domain_built d;
  pp_reqs : ~ In OBJECT_FLUENTS (d_reqs d);
  pp_object : ~ In "object" (map fst (d_types d));
  pp_constants : forall n g, In (n, g) (d_constants d) -> legal_name n /\ (forall t, g = Some t -> legal_type t);
  pp_predicates : Forall predicate_expressible (d_predicates d);
  pp_functions : NoDupE atom_eqb (map fst (d_functions d))
     /\ Forall (fun f => fun_parsed (fst f) /\ (snd f = None \/ snd f = Some "number")) (d_functions d);
  pp_actions : forall a, In a (d_actions d) -> exists body s1 s2, In (section_sx ":action" body) l /\ action_def body s1 = (s2, Ok a) /\ st_for d s1;
  pp_derived : forall x, In x (d_derived d) -> exists body s1 s2, In (section_sx ":derived" body) l /\ derived_def body s1 = (s2, Ok x) /\ st_for d s1
}.
Lemma parsed_domain_parts' s d : parse_domain_fresh s = Ok d -> exists n l, domain_text s n l /\ parsed_parts l d
  /\ forall body, In (section_sx ":derived" body) l -> exists s1 s2 x,
       derived_def body s1 = (s2, Ok x) /\ st_for d s1 /\ memb derived_eqb x (d_derived d) = true.
Proof.
  intros H. unfold parse_domain_fresh in H. destruct (parse_domain s init_dstate) as [st' r] eqn:E.
  cbn [snd] in H. subst r. apply parse_domain_inv in E as (n & l & Tx & H). exists n, l. split; [exact Tx|].
  apply domain_rule_inv in H as (o1 & l1 & st1 & rs & o2 & l2 & st2 & ty & o3 & l3 & st3 & cs & o4
    & l4 & st4 & ps & o5 & l5 & fs & st6 & xs & S1 & H1 & S2 & H2 & S3 & H3 & S4 & H4 & S5 & H5 & H6 & _ & K).
  pose proof K as KK.
  apply mk_domain_inv in K as (_ & _ & Kr & Kt & _ & Kc & Kp & Kd & Kf & Ka & _).
  (* requirements *)
  assert (X1 : forall r, In r (s_ext st1) -> In r (extend_reqs (d_reqs d))).
  { intros r R. rewrite Kr. now apply (requirements_ext o1 init_dstate st1 rs eq_refl H1). }
  assert (R1 : ~ In OBJECT_FLUENTS (d_reqs d)).
  { rewrite Kr. intros R. apply dedup_In in R. apply optM_Ok in H1. destruct o1 as [l0|].
    - destruct H1 as (a & H1 & ->). apply requirements_st in H1 as (ks & Q & -> & _). cbn in R. apply dedup_In in R.
      now apply require_keys_fluents in Q.
    - destruct H1 as (_ & ->). destruct R. }
  assert (I1 : s_constants st1 = [] /\ s_predicates st1 = [] /\ s_params st1 = [] /\ s_types st1 = None).
  { apply optM_Ok in H1. destruct o1.
    - destruct H1 as (? & R & _). apply requirements_st in R as (? & _ & _ & ->). auto.
    - destruct H1 as (-> & _). auto. }
  destruct I1 as (C1 & P1 & M1 & T1).
  (* types *)
  assert (X2 : s_constants st2 = [] /\ s_predicates st2 = [] /\ s_params st2 = [] /\ s_ext st2 = s_ext st1
    /\ (forall t, s_types st2 = Some t -> NoDup (map fst t) /\ norm_types t = d_types d /\ types_legal t)
    /\ ~ In "object" (map fst (d_types d))).
  { apply optM_Ok in H2. destruct o2 as [l0|].
    - destruct H2 as (t & R & ->). pose proof (types_ok _ _ _ _ R) as [N O].
      apply types_st in R as (-> & _). repeat (split; [auto; fail|]).
      apply mk_types_Ok in Kt as (Et & Lt & _); auto. rewrite Et. split.
      + cbn. intros t' [= <-]. auto.
      + now rewrite norm_types_keys.
    - destruct H2 as (-> & ->). repeat (split; [auto; fail|]). rewrite T1. split; [discriminate|].
      assert (Z : forall q, mk_types None q false = Ok []) by reflexivity. rewrite Z in Kt.
      injection Kt as Kt. rewrite <- Kt. intros []. }
  destruct X2 as (C2 & P2 & M2 & E2 & T2 & O2).
  (* constants *)
  assert (X3 : s_predicates st3 = [] /\ s_params st3 = [] /\ s_ext st3 = s_ext st2 /\ s_types st3 = s_types st2
    /\ map snd (s_constants st3) = d_constants d
    /\ Forall (fun kv => fst (snd kv) = fst kv /\ legal_name (fst (snd kv))
         /\ (forall t, snd (snd kv) = Some t -> legal_type t)) (s_constants st3)).
  { apply optM_Ok in H3. destruct o3 as [l0|].
    - destruct H3 as (t & R & ->). apply constants_st in R as (dd & Q & -> & ->). apply objects_ok in Q as [N F].
      repeat (split; [auto; fail|]). cbn [set_constants s_constants]. split; auto.
      rewrite Kc. cbn [opt_list]. symmetry. apply objects_dedup; auto.
      eapply Forall_impl; [|exact F]. now intros kv [Q _].
    - destruct H3 as (-> & ->). repeat (split; [auto; fail|]). rewrite C2, Kc. cbn. auto. }
  destruct X3 as (P3 & M3 & E3 & T3 & C3 & F3).
  (* predicates *)
  assert (X4 : s_params st4 = [] /\ s_ext st4 = s_ext st3 /\ s_types st4 = s_types st3 /\ s_constants st4 = s_constants st3
    /\ Forall predicate_expressible (opt_list ps)
    /\ forall n def, dict_get String.eqb n (s_predicates st4) = Some def -> fst def = n /\ In def (opt_list ps)).
  { apply optM_Ok in H4. destruct o4 as [l0|].
    - destruct H4 as (t & R & ->). apply predicates_st in R as (_ & Q & ->). repeat (split; [auto; fail|]). cbn [opt_list]. split.
      + apply Forall_forall. intros p I. apply (skeletons_In _ _ _ Q) in I as (s0 & _ & I). eapply skeleton_ok; eauto.
      + cbn [set_predicates s_predicates]. intros m def G.
        assert (F : Forall (fun kv => fst (snd kv) = fst kv /\ In (snd kv) t) (dict_of_list String.eqb (map (fun p : atom => (fst p, p)) t))).
        { apply dict_of_list_Forall. apply Forall_forall. intros kv I. apply in_map_iff in I as (p & <- & I). auto. }
        apply dict_get_In in G as (k & G & Ek). apply String.eqb_eq in Ek. subst k.
        rewrite Forall_forall in F. exact (F _ G).
    - destruct H4 as (-> & ->). repeat (split; [auto; fail|]). cbn. split; [constructor|]. rewrite P3. discriminate. }
  destruct X4 as (M4 & E4 & T4 & C4 & Q4 & P4).
  assert (W : st_for d st4).
  { split.
    - rewrite E4, E3, E2. exact X1.
    - now rewrite C4.
    - now rewrite C4.
    - rewrite M4. constructor.
    - rewrite M4. constructor.
    - rewrite M4. split; [constructor|]. split; [exists [], []; auto|intros v w []].
    - intros m def G. apply P4 in G as [G I]. split; auto. rewrite Forall_forall in Q4. split; auto.
      rewrite Kp, memb_dedup by apply atom_eqb_equiv. apply memb_In. exists def. split; auto. apply (eqv_refl _ atom_eqb_equiv).
    - rewrite T4, T3. exact T2. }
  apply mapM_runs in H6. split; cycle 1.
  { intros body B.
    assert (DD : is_def (section_sx ":derived" body)) by (right; eauto).
    assert (B5 : In (section_sx ":derived" body) l5).
    { eapply section_keeps; [exact S5| |exact DD|discriminate|discriminate].
      eapply section_keeps; [exact S4| |exact DD|discriminate|discriminate].
      eapply section_keeps; [exact S3| |exact DD|discriminate|discriminate].
      eapply section_keeps; [exact S2| |exact DD|discriminate|discriminate].
      eapply section_keeps; [exact S1| |exact DD|discriminate|discriminate]. exact B. }
    destruct (runs_all_inv structure_def (st_for d) _ _ _ _ _ H6 W (fun y a b z => structure_for d y a b z) B5)
      as (s1 & s2 & y & Wy & Y & F).
    apply structure_def_st in F as [F|F]; [destruct F as (? & ? & F & _); discriminate|].
    destruct F as (b' & a & E & -> & F). injection E as <-. exists s1, s2, a. split; auto. split; auto.
    rewrite Kd, memb_dedup by apply derived_eqb_equiv. apply memb_In. exists a.
    split; [|apply (eqv_refl _ derived_eqb_equiv)]. apply in_flat_map. exists (inr a). simpl. auto. }
  split; auto.
  - unfold domain_built. eauto 10.
  - intros m g I. rewrite <- C3 in I. apply in_map_iff in I as ([k c] & Q & I). cbn in Q. subst c.
    rewrite Forall_forall in F3. destruct (F3 _ I) as (_ & A & B). auto.
  - rewrite Kp. apply Forall_forall. intros p I. apply dedup_In in I. rewrite Forall_forall in Q4. auto.
  - rewrite Kf. apply optM_Ok in H5. destruct o5 as [l0|].
    + destruct H5 as (t & R & ->). unfold ret in R. injection R as R. cbn [opt_list].
      apply functions_ok in R as [N F]. split; auto. apply Forall_forall. intros f I.
      destruct (F f I) as [(s0 & _ & Q) B]. split; auto. eapply function_skeleton_ok; eauto.
    + destruct H5 as (_ & ->). split; constructor.
  - intros a A. rewrite Ka in A. apply dedup_In in A. apply in_flat_map in A as (x & Dx & Dd).
    destruct x as [a'|]; [|destruct Dd]. destruct Dd as [->|[]].
    destruct (runs_In structure_def (st_for d) _ _ _ _ (@inl action derived a) H6 W)
      as (y & sti & sti' & Wi & Hy & F); auto.
    { intros x s0 s1 z I F _. eapply structure_for; eauto. }
    apply structure_def_st in F as [F|F]; [|destruct F as (? & ? & _ & F & _); discriminate].
    destruct F as (body & a' & -> & [= <-] & F). exists body, sti, sti'. split; [|auto].
    apply (section_incl _ _ _ _ S1), (section_incl _ _ _ _ S2), (section_incl _ _ _ _ S3), (section_incl _ _ _ _ S4), (section_incl _ _ _ _ S5). exact Hy.
  - intros a A. rewrite Kd in A. apply dedup_In in A. apply in_flat_map in A as (x & Dx & Dd).
    destruct x as [|a']; [destruct Dd|]. destruct Dd as [->|[]].
    destruct (runs_In structure_def (st_for d) _ _ _ _ (@inr action derived a) H6 W)
      as (y & sti & sti' & Wi & Hy & F); auto.
    { intros x s0 s1 z I F _. eapply structure_for; eauto. }
    apply structure_def_st in F as [F|F]; [destruct F as (? & ? & _ & F & _); discriminate|].
    destruct F as (body & a' & -> & [= <-] & F). exists body, sti, sti'. split; [|auto].
    apply (section_incl _ _ _ _ S1), (section_incl _ _ _ _ S2), (section_incl _ _ _ _ S3), (section_incl _ _ _ _ S4), (section_incl _ _ _ _ S5). exact Hy.
Qed.
Lemma parsed_domain_parts s d : parse_domain_fresh s = Ok d -> exists n l, domain_text s n l /\ parsed_parts l d.
Proof. intros H. destruct (parsed_domain_parts' s d H) as (n & l & T & P & _). eauto. Qed.

(** ** terms of a definition *)
Lemma find_const n l k : Forall (fun kv : string * const => fst (snd kv) = fst kv) l ->
  dict_get String.eqb n l = Some k -> find (fun c => String.eqb (fst c) n) (map snd l) = Some k.
Proof.
  induction 1 as [|[m c] l E F IH]; cbn in *; [discriminate|]. rewrite E, (String.eqb_sym m n).
  destruct (String.eqb n m); auto.
Qed.
Lemma const_fits d vs st n t : st_for d st -> g_const (domain_ctx st) n = Ok t ->
  fits (known d vs) t /\ exists g, t = TConst n g /\ In (n, g) (d_constants d).
Proof.
  intros W H. cbn in H. destruct (dict_get String.eqb n (s_constants st)) as [[m g]|] eqn:D; [|discriminate].
  injection H as <-. cbn. pose proof (find_const n (s_constants st) (m, g)) as Fi.
  pose proof (sf_const_ok _ _ W) as F. apply dict_get_In in D as Q. destruct Q as (k & I & E).
  apply String.eqb_eq in E. subst k. rewrite Forall_forall in F. destruct (F _ I) as (Em & L & _). cbn in Em, L. subst m.
  split.
  - split; auto. rewrite <- (sf_consts _ _ W), Fi; auto. apply Forall_forall. intros kv J. apply (F _ J).
  - exists g. split; auto. rewrite <- (sf_consts _ _ W). apply in_map_iff. exists (n, (n, g)). auto.
Qed.
Lemma params_known ps : Forall (fun kv : string * var => v_name (snd kv) = fst kv) ps ->
  map (fun v => (v_name v, v)) (map snd ps) = ps.
Proof. induction 1 as [|[k v] ps E F IH]; cbn in *; auto. rewrite E, IH. reflexivity. Qed.
Lemma action_terms d st t : st_for d st -> from_ctx (domain_ctx st) t ->
  fits (known d (map snd (s_params st))) t.
Proof.
  intros W [(n & H)|[(n & v & -> & H)|(n & v & -> & D & H)]].
  - eapply const_fits; eauto.
  - cbn [domain_ctx g_params] in H. pose proof H as H'. apply dict_get_In in H as (k & I & E). apply String.eqb_eq in E.
    subst k. pose proof (sf_params _ _ W) as F. rewrite Forall_forall in F. pose proof (F _ I) as E. cbn in E.
    destruct (sf_params_ok _ _ W) as (L & _). rewrite Forall_forall in L.
    assert (Lv : legal_var v) by (apply L, in_map_iff; exists (n, v); auto).
    unfold fits. split; [apply Lv|]. cbn [known g_params]. rewrite params_known by apply (sf_params _ _ W).
    rewrite E, H'. split; auto. intros x. tauto.
  - apply mk_var_Ok in H as (-> & L & _). unfold fits. split; [exact L|]. cbn [known g_params v_name].
    rewrite params_known by apply (sf_params _ _ W). cbn [domain_ctx g_params] in D. now rewrite D.
Qed.

(** ** actions *)
Lemma action_ok d body s1 s2 a : st_for d s1 -> action_def body s1 = (s2, Ok a) -> writable_action d a ->
  action_expressible d a.
Proof.
  intros W H (W1 & W2 & W3). pose proof (action_for _ _ _ _ _ W H) as Wf.
  apply action_def_st in H as (n & ps & bd & vs & b & _ & P & Bd & K).
  apply action_parameters_ok in P as (qs & Es & -> & Kq & Nq & (V1 & V2 & V3)).
  apply action_body_inv in Bd as (x & y & _ & Bp & Be).
  unfold mk_action in K. apply bind_Ok in K as (n' & Nm & K). inversion K; subst a. clear K.
  apply parse_name_Ok' in Nm as [-> Ln]. cbn [a_name a_params a_pre a_eff] in *.
  assert (Eq : map snd (s_params s2) = map snd qs) by now rewrite Es.
  destruct (W2 _ eq_refl) as [Wp Wp']. destruct (W3 _ eq_refl) as [We We'].
  assert (X : forall r, In r (g_ext (domain_ctx s2)) -> In r (g_ext (known d (map snd qs)))).
  { intros r R. apply (sf_ext _ _ Wf), R. }
  assert (Fit : forall t, from_ctx (domain_ctx s2) t -> fits (known d (map snd qs)) t).
  { intros t T. rewrite <- Eq. now apply action_terms. }
  assert (HV : forall s tl vs, g_vars (domain_ctx s2) s = Ok tl -> mk_vars tl = Ok vs -> vars_ok (dedup var_eqb vs)).
  { intros s tl vs. apply binder_vars. }
  exists (map snd qs), (fst b), (snd b). cbn [a_name]. rewrite map_map. split; [reflexivity|]. split; auto.
  split.
  { split; auto. split; auto. apply Forall_forall. intros v I. apply W1. apply in_map_iff in I as (kv & <- & I).
    apply in_map_iff. eauto. }
  split.
  { clear - Kq Nq. rewrite map_map. replace (map (fun x => v_name (snd x)) qs) with (map fst qs); auto.
    induction Kq as [|kv qs E F IH]; cbn; auto. inversion Nq; subst. rewrite E, IH; auto. }
  split; [eapply emptyor_pregd_built; eauto|]. split.
  { apply (emptyor_pregd_l (domain_ctx s2) (fits (known d (map snd qs))) Fit HV) in Bp as [E|L].
    - rewrite E in *. apply C_or; [exact (Wp' eq_refl)|constructor].
    - exact (lcond_strict _ _ _ (fun t H => H) X _ L Wp). }
  split; [eapply emptyor_effect_built; eauto|].
  apply (emptyor_effect_l (domain_ctx s2) (fits (known d (map snd qs))) Fit HV) in Be as [E|L]; [congruence|].
  exact (leff_strict _ _ _ (fun t H => H) X _ _ L We).
Qed.

(** ** derived predicates *)
Lemma strip_bare f : Spec_Derived.strip f = bare f.
Proof.
  assert (T : forall t, Spec_Derived.strip_term t = bare_term t) by now intros [].
  induction f using form_ind'; cbn; auto.
  - f_equal. apply map_ext, T.
  - now rewrite !T.
  - f_equal. apply map_ext, T.
  - f_equal. apply map_ext_in. rewrite Forall_forall in H. exact H.
  - f_equal. apply map_ext_in. rewrite Forall_forall in H. exact H.
  - congruence.
  - congruence.
  - congruence.
  - congruence.
Qed.
Lemma writable_bare f : writable (bare f) <-> writable f.
Proof.
  induction f using form_ind'; cbn; try tauto.
  - rewrite map_length. apply and_iff_compat_l. induction H; cbn; tauto.
  - induction H; cbn; tauto.
Qed.
Lemma argument_bare f t : argument t f -> argument (bare_term t) (bare f).
Proof.
  induction 1; cbn.
  - apply Spec.A_pred. now apply in_map.
  - apply A_eq_l.
  - apply A_eq_r.
  - apply A_numfun. now apply in_map.
  - eapply A_binfun; [apply in_map; eassumption|auto].
  - eapply A_bin; [apply in_map; eassumption|auto].
  - now apply A_not.
  - now apply A_quant.
  - now apply A_when_c.
  - now apply A_when_e.
  - now apply A_forall.
Qed.
Lemma argument_bare_inv f t : argument t (bare f) -> exists u, argument u f /\ bare_term u = t.
Proof.
  revert t. induction f using form_ind'; intros t A; cbn in A; inversion A; subst.
  - match goal with X : In _ (map _ _) |- _ => apply in_map_iff in X as (u & <- & I) end. exists u. split; auto. now constructor.
  - exists l. split; auto. constructor.
  - exists r. split; auto. constructor.
  - match goal with X : In _ (map _ _) |- _ => apply in_map_iff in X as (u & <- & I) end. exists u. split; auto. now constructor.
  - match goal with X : In _ (map _ _) |- _ => apply in_map_iff in X as (g & <- & I) end. rewrite Forall_forall in H.
    destruct (H _ I t) as (u & U & <-); auto. exists u. split; auto. econstructor; eauto.
  - match goal with X : In _ (map _ _) |- _ => apply in_map_iff in X as (g & <- & I) end. rewrite Forall_forall in H.
    destruct (H _ I t) as (u & U & <-); auto. exists u. split; auto. econstructor; eauto.
  - destruct (IHf t) as (u & U & <-); auto. exists u. split; auto. now constructor.
  - destruct (IHf t) as (u & U & <-); auto. exists u. split; auto. now constructor.
  - destruct (IHf1 t) as (u & U & <-); auto. exists u. split; auto. now constructor.
  - destruct (IHf2 t) as (u & U & <-); auto. exists u. split; auto. now apply A_when_e.
  - destruct (IHf t) as (u & U & <-); auto. exists u. split; auto. now constructor.
Qed.
Lemma update_built f : forall m f', update_type_tags m f = Ok f' -> built f'.
Proof.
  assert (L : forall ops, Forall (fun f => forall m f', update_type_tags m f = Ok f' -> built f') ops ->
    forall m ops', mapR (update_type_tags m) ops = Ok ops' -> Forall built ops').
  { intros ops F m ops' M. apply mapR_Ok in M. induction M as [|a b l l' E M IH]; inversion F; subst; constructor; eauto. }
  induction f using form_ind'; intros m f' U; cbn in U; try discriminate.
  - apply bind_Ok in U as (ts' & _ & U). eapply B_pred; eauto.
  - apply bind_Ok in U as (l' & _ & U). apply bind_Ok in U as (r' & _ & U). eapply B_eq; eauto.
  - apply bind_Ok in U as (ts' & _ & U). eapply B_numfun; eauto.
  - injection U as <-. constructor.
  - apply bind_Ok in U as (ops' & M & U). injection U as <-. constructor. eauto.
  - apply bind_Ok in U as (ops' & M & U). injection U as <-. constructor. eauto.
  - apply bind_Ok in U as (g' & M & U). injection U as <-. constructor. eauto.
  - apply bind_Ok in U as (g' & M & U). injection U as <-. constructor. eauto.
Qed.
(** the types given to the variables of a head without repeated names *)
Lemma head_types_get types hs : forall m m' ds, head_types types m hs ds = Ok m' ->
  forall n, ~ In n (map t_name hs) -> dict_get String.eqb n m' = dict_get String.eqb n m.
Proof.
  induction hs as [|t hs IH]; intros m m' ds H n N; destruct ds as [|d ds]; simpl in H; try (now injection H as <-).
  destruct t as [|v]; [discriminate|]. cbn in N.
  assert (Q : String.eqb n (v_name v) = false) by (apply String.eqb_neq; intros ->; tauto).
  destruct (v_tags v) as [|g gs].
  - rewrite (IH _ _ _ H) by tauto. destruct (t_tags d); auto. now rewrite dict_get_set_s, Q.
  - apply bind_Ok in H as ([] & _ & H). rewrite (IH _ _ _ H) by tauto. now rewrite dict_get_set_s, Q.
Qed.
Lemma head_types_spec types hs : forall m m' ds, head_types types m hs ds = Ok m' ->
  NoDup (map t_name hs) -> length ds = length hs ->
  Forall2 (fun t u => exists v, t = TVar v /\
    ((v_tags v = [] /\ t_tags u = [] /\ dict_get String.eqb (v_name v) m' = dict_get String.eqb (v_name v) m)
     \/ (v_tags v = [] /\ t_tags u <> [] /\ dict_get String.eqb (v_name v) m' = Some (t_tags u))
     \/ (v_tags v <> [] /\ check_subtypes types (v_tags v) (t_tags u) = Ok tt
         /\ dict_get String.eqb (v_name v) m' = Some (v_tags v)))) hs ds
  \/ exists n, In n (map t_name hs) /\ dict_get String.eqb n m <> None.
Proof.
  induction hs as [|t hs IH]; intros m m' ds H N L; destruct ds as [|d ds]; try discriminate.
  { left. constructor. }
  simpl in H. destruct t as [|v]; [discriminate|]. cbn in N, L. inversion N as [|? ? N1 N2]; subst.
  injection L as L.
  destruct (dict_get String.eqb (v_name v) m) eqn:Dm.
  { right. exists (v_name v). split; [now left|]. rewrite Dm. discriminate. }
  assert (Z : forall m1, head_types types m1 hs ds = Ok m' ->
    (forall n, n <> v_name v -> dict_get String.eqb n m1 = dict_get String.eqb n m) ->
    Forall2 (fun t u => exists v, t = TVar v /\
    ((v_tags v = [] /\ t_tags u = [] /\ dict_get String.eqb (v_name v) m' = dict_get String.eqb (v_name v) m)
     \/ (v_tags v = [] /\ t_tags u <> [] /\ dict_get String.eqb (v_name v) m' = Some (t_tags u))
     \/ (v_tags v <> [] /\ check_subtypes types (v_tags v) (t_tags u) = Ok tt
         /\ dict_get String.eqb (v_name v) m' = Some (v_tags v)))) hs ds
     \/ exists n, In n (map t_name hs) /\ dict_get String.eqb n m <> None).
  { intros m1 H1 M1. destruct (IH _ _ _ H1 N2 L) as [F|(n & I & Q)].
    - left. clear - F M1 N1. induction F as [|a b l l' (w & -> & E) F IH]; constructor.
      + exists w. split; auto. destruct E as [(A & B & C)|E]; auto. left. repeat split; auto.
        rewrite C. apply M1. intros Q. apply N1. left. cbn. auto.
      + apply IH. intros Q. apply N1. now right.
    - right. exists n. split; auto. rewrite <- M1; auto. intros ->. tauto. }
  destruct (v_tags v) as [|g gs] eqn:Tv.
  - destruct (Z _ H) as [F|(n & I & Q)].
    + intros n Q. destruct (t_tags d); auto. rewrite dict_get_set_s. now apply String.eqb_neq in Q as ->.
    + left. constructor; auto. exists v. split; auto.
      pose proof (head_types_get _ _ _ _ _ H (v_name v) N1) as G.
      destruct (t_tags d) as [|h hs'] eqn:Td.
      * left. auto.
      * right. left. split; auto. split; [discriminate|]. rewrite G, dict_get_set_s, String.eqb_refl. reflexivity.
    + right. exists n. split; auto. now right.
  - apply bind_Ok in H as ([] & C & H). destruct (Z _ H) as [F|(n & I & Q)].
    + intros n Q. rewrite dict_get_set_s. now apply String.eqb_neq in Q as ->.
    + left. constructor; auto. exists v. split; auto.
      pose proof (head_types_get _ _ _ _ _ H (v_name v) N1) as G.
      right. right. rewrite Tv. split; [discriminate|]. split; auto. rewrite G, dict_get_set_s, String.eqb_refl. reflexivity.
    + right. exists n. split; auto. now right.
Qed.

Lemma head_vars types hs m m' ds : head_types types m hs ds = Ok m' -> length ds = length hs ->
  exists vs, hs = map TVar vs.
Proof.
  revert m ds. induction hs as [|t hs IH]; intros m ds H L; destruct ds; try discriminate.
  - now exists [].
  - simpl in H. destruct t as [|v]; [discriminate|]. injection L as L. destruct (v_tags v).
    + apply IH in H as (vs & ->); auto. now exists (v :: vs).
    + apply bind_Ok in H as ([] & _ & H). apply IH in H as (vs & ->); auto. now exists (v :: vs).
Qed.
(** the head as stored, against its declaration *)
Definition head_tags (v w : var) (gs : list string) : Prop :=
  (v_tags v = [] /\ v_tags w = [] /\ gs = []) \/ (v_tags v = [] /\ v_tags w <> [] /\ gs = dedup String.eqb (v_tags w))
  \/ (v_tags v <> [] /\ gs = dedup String.eqb (v_tags v)).
Lemma dedup_nil l : dedup String.eqb l = [] -> l = [].
Proof.
  intros E. destruct l as [|a l]; auto. exfalso.
  assert (I : In a (dedup String.eqb (a :: l))) by (apply dedup_string_In; now left). rewrite E in I. destruct I.
Qed.
Lemma head_untyped vs ws us : Forall2 (fun vw u => head_tags (fst vw) (snd vw) (v_tags u)) (combine vs ws) us ->
  length vs = length ws -> ul vs -> ul ws -> ul us.
Proof.
  assert (N : forall vs ws us, Forall2 (fun vw u => head_tags (fst vw) (snd vw) (v_tags u)) (combine vs ws) us ->
    length vs = length ws -> Forall (fun v => v_tags v = []) vs -> Forall (fun v => v_tags v = []) ws ->
    Forall (fun v => v_tags v = []) us).
  { clear. induction vs as [|v vs IH]; intros [|w ws] us F L V W; try discriminate; cbn in F; inversion F; subst; constructor.
    - inversion V; inversion W; subst. match goal with X : head_tags _ _ _ |- _ => destruct X as [X|[X|X]] end; cbn in *; tauto.
    - inversion V; inversion W; subst. eapply IH; eauto. }
  revert ws us. induction vs as [|v vs IH]; intros [|w ws] us F L V W; try discriminate; cbn in F; inversion F as [|? u ? us' X F']; subst; cbn; auto.
  destruct V as [V1 V2], W as [W1 W2]. injection L as L. split; eauto. intros T.
  destruct X as [(X1 & X2 & _)|[(X1 & X2 & X3)|(X1 & X3)]]; cbn [fst snd] in *.
  - eapply N; eauto.
  - rewrite T in X3. symmetry in X3. apply dedup_nil in X3. tauto.
  - rewrite T in X3. symmetry in X3. apply dedup_nil in X3. tauto.
Qed.

Lemma subtypes_arg d st gs hs : st_for d st -> Forall legal_type hs -> check_subtypes (s_types st) gs hs = Ok tt ->
  hs = [] \/ forall g, In g gs -> In g hs \/ exists p, In (g, Some p) (d_types d) /\ In p hs.
Proof.
  intros W L H. destruct (s_types st) as [ty|] eqn:E.
  - destruct (sf_types _ _ W _ E) as (N & <- & _). apply (check_subtypes_Ok ty gs hs N) in H as [H|H]; auto.
    right. intros g G. destruct (H g G) as [X|(p & I & J)]; auto. right. exists p. split; auto.
    apply norm_types_In. split; auto. rewrite Forall_forall in L. specialize (L _ J). intros ->.
    destruct L as [(c & r & L & _) _]. discriminate.
  - destruct hs as [|h hs]; auto. right. intros g G. left. unfold check_subtypes in H.
    apply iterR_Ok in H. rewrite Forall_forall in H. specialize (H _ G). rewrite check_subtype_eq in H.
    destruct (memb String.eqb g (h :: hs)) eqn:M; [|discriminate]. apply (memb_In String.eqb) in M as (y & I & Q).
    apply String.eqb_eq in Q. now subst y.
Qed.

Lemma head_retag types vs ws m : NoDup (map v_name vs) -> length ws = length vs ->
  head_types types [] (map TVar vs) (map TVar ws) = Ok m ->
  exists us, map (retag_term (lookup m)) (map TVar vs) = map TVar us /\ map v_name us = map v_name vs
    /\ Forall2 (fun vw u => head_tags (fst vw) (snd vw) (v_tags u)) (combine vs ws) us
    /\ Forall2 (fun v w => v_tags v = [] \/ check_subtypes types (v_tags v) (v_tags w) = Ok tt) vs ws.
Proof.
  intros N L H. apply head_types_spec in H as [F|(n & _ & Q)].
  - clear N L. remember (map TVar vs) as hs eqn:Eh. remember (map TVar ws) as ds eqn:Ed.
    revert vs ws Eh Ed. induction F as [|h t hs ds (v' & -> & E) F IH]; intros [|v vs] [|w ws] Eh Ed; try discriminate.
    + exists []. repeat split; auto; constructor.
    + injection Eh as -> Eh. injection Ed as -> Ed. destruct (IH _ _ Eh Ed) as (us & E1 & E2 & E3 & E4).
      cbn [t_tags] in E. cbn [map combine retag_term].
      assert (Lk : lookup m (v_name v) = option_map (dedup String.eqb) (dict_get String.eqb (v_name v) m)) by reflexivity.
      destruct E as [(A & B & C)|[(A & B & C)|(A & B & C)]]; rewrite C in Lk; cbn in Lk; rewrite Lk.
      * exists (v :: us). cbn [map]. rewrite E1, E2. repeat split; auto; constructor; auto. left. auto.
      * exists (mkVar (v_name v) (dedup String.eqb (v_tags w)) :: us). cbn [map v_name]. rewrite E1, E2.
        repeat split; auto; constructor; auto. right. left. auto.
      * exists (mkVar (v_name v) (dedup String.eqb (v_tags v)) :: us). cbn [map v_name]. rewrite E1, E2.
        repeat split; auto; constructor; auto. right. right. auto.
  - now destruct Q.
  - rewrite map_map. auto.
  - now rewrite !map_length.
Qed.
Lemma const_declared d st n g : st_for d st -> from_ctx (domain_ctx st) (TConst n g) -> In (n, g) (d_constants d).
Proof.
  intros W [(m & H)|[(m & v & H & _)|(m & v & H & _)]]; try discriminate.
  apply (const_fits d []) in H as (_ & k & E & I); auto. injection E as -> ->. exact I.
Qed.
Lemma derived_ok d body s1 s2 x : st_for d s1 -> derived_def body s1 = (s2, Ok x) -> writable_derived d x ->
  derived_expressible d x.
Proof.
  intros W H (Wn & Wu & Ww & Ws & Wc). pose proof H as H0.
  destruct body as [|h [|c [|]]]; try discriminate.
  assert (P : params_ok s1).
  { intros n v Dp. apply dict_get_In in Dp as (k & I & E). apply String.eqb_eq in E. subst k.
    pose proof (sf_params _ _ W) as F. rewrite Forall_forall in F. exact (F _ I). }
  destruct (derived_strip _ _ _ _ _ P H) as ((cond & G & Sc) & _).
  unfold derived_def, bindM, ret, reads in H.
  destruct (atomic_formula_skeleton h) as [head|] eqn:A; [|discriminate].
  rewrite G in H. apply (f_equal snd) in H. cbn [snd] in H. unfold derived_callback in H.
  destruct (dict_get String.eqb (fst head) (s_predicates s1)) as [def|] eqn:Dg; [|discriminate].
  apply bind_Ok in H as ([] & L & H). apply bind_Ok in H as (m & M & H). apply bind_Ok in H as (p & U & H).
  apply bind_Ok in H as (cond' & C & H). simpl in U. apply bind_Ok in U as (ts' & T & U). apply mk_pred_Ok in U. subst p.
  inversion H; subst x. cbn [dp_terms dp_cond dp_name] in *. clear H.
  apply replace_terms_retag in T.
  destruct (Nat.eqb (length (snd def)) (length (snd head))) eqn:Q; [|discriminate]. apply Nat.eqb_eq in Q. clear L.
  destruct (skeleton_ok _ _ A) as (vs & Ev & Ln & V1 & V2 & V3).
  destruct (sf_preds _ _ W _ _ Dg) as (En & (ws & Ew & _ & W1 & W2 & W3) & Md).
  rewrite Ev in T, M, Q. rewrite Ew in M, Q. rewrite !map_length in Q.
  assert (Nv : NoDup (map v_name vs)).
  { replace (map v_name vs) with (map t_name ts'); auto. rewrite T, !map_map. apply map_ext. intros v. cbn.
    now destruct (lookup m (v_name v)). }
  destruct (head_retag _ _ _ _ Nv Q M) as (us & Eu & Nu & Fu & Fc). rewrite Eu in T. subst ts'.
  apply (memb_In atom_eqb) in Md as ((dn & ts) & Id & Qd). unfold atom_eqb in Qd. apply andb_true_iff in Qd as [Q1 Q2].
  cbn [fst snd] in Q1, Q2. apply String.eqb_eq in Q1. rewrite En in Q1. subst dn.
  apply list_eqb_Forall2 in Q2. rewrite Ew in Q2.
  exists us, ts. cbn [dp_terms dp_cond dp_name]. split; auto. split; auto.
  assert (Lu : Forall legal_var us).
  { clear - Fu V1 W1 Q Nu Nv. revert ws W1 us Fu Q Nu. induction vs as [|v vs IH]; intros [|w ws] W1 us Fu Q Nu; try discriminate;
      cbn in Fu; inversion Fu as [|? u ? us' X F]; subst; constructor.
    - inversion V1 as [|? ? V V']; inversion W1 as [|? ? Wv W']; subst. injection Nu as Nu _.
      destruct V as (A1 & A2 & A3), Wv as (B1 & B2 & B3). split; [now rewrite Nu|].
      destruct X as [(X1 & X2 & X3)|[(X1 & X2 & X3)|(X1 & X3)]]; cbn [fst snd] in *; rewrite X3.
      + split; [apply Forall_nil|apply NoDup_nil].
      + split; [|apply dedup_string_NoDup]. apply Forall_forall. intros g I. apply (proj1 (dedup_string_In _ _)) in I.
        exact (proj1 (Forall_forall _ _) B2 _ I).
      + split; [|apply dedup_string_NoDup]. apply Forall_forall. intros g I. apply (proj1 (dedup_string_In _ _)) in I.
        exact (proj1 (Forall_forall _ _) A2 _ I).
    - inversion V1; inversion W1; inversion Nv; subst. injection Nu as _ Nu. eapply IH; eauto. }
  split; auto. split.
  { intros v w Iv Iw E. rewrite <- Nu in Nv. replace w with v; [now intros g|].
    clear - Nv Iv Iw E. induction us as [|u us IH]; [destruct Iv|]. cbn in Nv. inversion Nv; subst.
    destruct Iv as [->|Iv], Iw as [->|Iw]; auto.
    - exfalso. apply H1. rewrite E. now apply in_map.
    - exfalso. apply H1. rewrite <- E. now apply in_map. }
  split.
  { apply ul_spec. apply ul_spec in V3, W3. eapply head_untyped; eauto. }
  split; auto. split; [intros us' I; exact (Wu _ _ I Id)|]. split.
  { clear - W Fu Fc Q2 W1 Q. revert ws ts Fc Q2 W1 us Fu Q. induction vs as [|v vs IH]; intros [|w ws] ts Fc Q2 W1 us Fu Q; try discriminate;
      cbn in Fu; inversion Fu as [|? u ? us' X F]; subst; cbn in Q2; inversion Q2 as [|? t ? ts'' Y Q2']; subst; constructor.
    - inversion Fc as [|? ? ? ? Z Fc']; inversion W1 as [|? ? L W1']; subst. destruct t as [|t]; [discriminate|]. cbn in Y.
      unfold var_eqb in Y. apply andb_true_iff in Y as [_ Y]. pose proof (proj1 (set_eqb_string _ _) Y) as Y'.
      unfold head_arg. cbn [t_tags]. destruct L as (_ & L & _).
      assert (E0 : v_tags w = [] -> v_tags t = []).
      { intros E. destruct (v_tags t) as [|g gs]; auto. exfalso. rewrite E in Y'. now apply (Y' g); left. }
      destruct X as [(X1 & X2 & X3)|[(X1 & X2 & X3)|(X1 & X3)]]; cbn [fst snd] in *.
      + rewrite X3. auto.
      + destruct (v_tags u) as [|g0 gs0] eqn:Eu; [symmetry in X3; apply dedup_nil in X3; tauto|].
        right. intros g I. left. rewrite X3 in I. apply (proj1 (dedup_string_In _ _)) in I. now apply Y'.
      + destruct (v_tags u) as [|g0 gs0] eqn:Eu; [symmetry in X3; apply dedup_nil in X3; tauto|].
        destruct Z as [Z|Z]; [tauto|]. apply (subtypes_arg d) in Z as [Z|Z]; auto.
        right. intros g I. rewrite X3 in I. apply (proj1 (dedup_string_In _ _)) in I.
        destruct (Z _ I) as [J|(p & J & K)]; [left; now apply Y'|right; exists p; split; auto; now apply Y'].
    - inversion Fc; inversion W1; subst. eapply IH; eauto. }
  split; [eapply update_built; eauto|]. split; [|now apply Ws].
  rewrite !strip_bare in Sc. rewrite Sc.
  assert (Ac : args_in (fun t => argument t cond) cond) by now intros t.
  assert (NC : forall v g, argument (TVar v) cond -> ~ In (v_name v, Some g) (d_constants d)).
  { intros v g Av. apply argument_bare in Av. rewrite <- Sc in Av. apply argument_bare_inv in Av as (u & Au & Bu).
    destruct u as [|u]; [discriminate|]. cbn in Bu. injection Bu as Bu. rewrite <- Bu. eapply Wc; eauto. }
  apply (lcond_strict (known d []) (fits (known d [])) (g_ext (domain_ctx s1))); auto.
  { intros r R. apply (sf_ext _ _ W), R. }
  - apply (lcond_bare (from_ctx (domain_ctx s1)) _ (fun t => argument t cond)); auto.
    + intros t At Ft. pose proof (action_terms _ _ _ W Ft) as Fi. destruct t as [n g|v]; cbn [bare_term].
      * exact Fi.
      * destruct Fi as [Fi _]. split; [exact Fi|reflexivity].
    + intros t u At Au Ft Fu' E S1. destruct t as [n g|v], u as [n' g'|v']; cbn [bare_term t_tags t_name] in *; auto.
      * destruct g as [g|]; [|tauto]. exfalso. subst n. apply (NC v' g Au). exact (const_declared _ _ _ _ W Ft).
      * destruct g' as [g|]; [|tauto]. exfalso. subst n'. apply (NC v g At). exact (const_declared _ _ _ _ W Fu').
      * tauto.
    + eapply gd_l with (c := domain_ctx s1); eauto. intros s tl vars. apply binder_vars.
  - apply writable_bare. rewrite <- writable_bare, <- Sc. now apply writable_bare.
Qed.

(** ** the whole domain *)
Lemma parsed_domain_expressible s d : parse_domain_fresh s = Ok d -> writable_domain d ->
  domain_built d /\ expressible_domain d /\ NoDupE atom_eqb (map fst (d_functions d)).
Proof.
  intros H W. apply parsed_domain_parts in H as (n0 & l0 & _ & [P1 P2 P3 P4 P5 [P6 P7] P8 P9]). destruct W as [W1 W2 W3 W4 W5].
  split; auto. split; auto. split; auto.
  - split; auto.
  - apply Forall_forall. intros f I. rewrite Forall_forall in P7. destruct (P7 _ I) as ((vs & E & L & V & T) & N).
    exists vs. split; auto. split; auto. split; auto. apply block_ok; auto. apply Forall_forall. intros v J.
    apply (W3 f); auto. rewrite E. now apply in_map.
  - apply Forall_forall. intros x I. destruct (P9 _ I) as (body & s1 & s2 & _ & D & F). eapply derived_ok; eauto.
  - apply Forall_forall. intros a I. destruct (P8 _ I) as (body & s1 & s2 & _ & D & F). eapply action_ok; eauto.
Qed.
