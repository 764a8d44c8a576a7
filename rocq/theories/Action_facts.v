(** The actions of a parsed domain: where they come from, their parameters, empty preconditions. *)
From Coq Require Import String List Bool Arith Lia.
From Verif Require Import Py Names Reqs Logic Validation Core Lexer TypedList UpdateTags Parser.
From Verif Require Import Sem Spec Spec_Core Spec_Parse Spec_Action.
From Verif Require Import Py_facts Logic_facts Names_facts CoreEq_facts Inst_facts Parse_facts
  GD_facts Derived_facts Domain_facts Derived_facts2 Feature_facts.
Import ListNotations.
Open Scope string_scope.
Open Scope list_scope.

Lemma parsed_actions s n l st st' d :
  domain_text s n l -> parse_domain s st = (st', Ok d) ->
  (forall a, In a (d_actions d) ->
     exists body s1 s2, In (section_sx ":action" body) l /\ action_def body s1 = (s2, Ok a))
  /\ (forall body, In (section_sx ":action" body) l ->
     exists s1 s2 a, action_def body s1 = (s2, Ok a) /\ memb action_eqb a (d_actions d) = true).
Proof.
  intros T H. apply parse_domain_inv in H as (n' & l0 & T' & H).
  unfold domain_text in *. rewrite T in T'. injection T' as _ <-.
  apply domain_rule_inv in H as (o1 & l1 & st1 & rs & o2 & l2 & st2 & ty & o3 & l3 & st3 & cs & o4
    & l4 & st4 & ps & o5 & l5 & fs & st6 & xs & S1 & H1 & S2 & H2 & S3 & H3 & S4 & H4 & S5 & _ & H6 & _ & K).
  apply mk_domain_inv in K as (_ & _ & _ & _ & _ & _ & _ & _ & _ & Ka & _).
  apply mapM_runs in H6. split.
  - intros a A. rewrite Ka in A. apply dedup_In in A. apply in_flat_map in A as (x & Dx & Dd).
    destruct x as [a'|]; [|destruct Dd]. destruct Dd as [->|[]].
    destruct (runs_In structure_def (fun _ => True) _ _ _ _ (@inl action derived a) H6)
      as (y & sti & sti' & _ & Hy & F); auto.
    apply structure_def_st in F as [F|F]; [|destruct F as (? & ? & _ & F & _); discriminate].
    destruct F as (body & a' & -> & [= <-] & F). exists body, sti, sti'. split; auto.
    eapply section_incl; [exact S1|]. eapply section_incl; [exact S2|].
    eapply section_incl; [exact S3|]. eapply section_incl; [exact S4|].
    eapply section_incl; [exact S5|]. exact Hy.
  - intros body B. assert (DD : is_def (section_sx ":action" body)) by (left; eauto).
    assert (I5 : In (section_sx ":action" body) l5).
    { eapply section_keeps; [exact S5| |exact DD|discriminate|discriminate].
      eapply section_keeps; [exact S4| |exact DD|discriminate|discriminate].
      eapply section_keeps; [exact S3| |exact DD|discriminate|discriminate].
      eapply section_keeps; [exact S2| |exact DD|discriminate|discriminate].
      eapply section_keeps; [exact S1| |exact DD|discriminate|discriminate]. exact B. }
    destruct (runs_all structure_def _ _ _ _ _ H6 I5) as (s1 & s2 & y & Y & F).
    apply structure_def_st in F as [F|F].
    2:{ destruct F as (? & ? & F & _). discriminate. }
    destruct F as (b' & a & E & -> & F). injection E as <-. exists s1, s2, a. split; auto.
    rewrite Ka, memb_dedup by apply action_eqb_equiv. apply memb_In. exists a.
    split; [|apply (eqv_refl _ action_eqb_equiv)]. apply in_flat_map. exists (inl a). simpl. auto.
Qed.

(** ** the parameters *)
Lemma dict_fold_keys {V} (l : list (string * V)) : forall d,
  map fst (fold_left (fun d kv => dict_set String.eqb (fst kv) (snd kv) d) l d)
  = fold_left (fun ks k => if memb String.eqb k ks then ks else ks ++ [k]) (map fst l) (map fst d).
Proof. induction l as [|kv l IH]; intros d; auto. simpl. now rewrite IH, dict_set_keys. Qed.

Lemma first_fold l : forall ks seen, (forall x, memb String.eqb x seen = memb String.eqb x ks) ->
  fold_left (fun ks k => if memb String.eqb k ks then ks else ks ++ [k]) l ks
  = ks ++ dedup_from String.eqb seen l.
Proof.
  induction l as [|x l IH]; intros ks seen E; simpl; [now rewrite app_nil_r|].
  rewrite E. destruct (memb String.eqb x ks) eqn:M; [now apply IH|].
  rewrite (IH _ (x :: seen)).
  - now rewrite <- app_assoc.
  - intros y. simpl. rewrite E, memb_app. simpl. now rewrite orb_false_r, orb_comm.
Qed.
Lemma filter_comm {A} (p q : A -> bool) l : filter p (filter q l) = filter q (filter p l).
Proof.
  induction l as [|x l IH]; simpl; auto.
  destruct (q x) eqn:Q, (p x) eqn:P; simpl; rewrite ?P, ?Q, IH; auto.
Qed.
Lemma filter_all {A} (p : A -> bool) l : (forall x, In x l -> p x = true) -> filter p l = l.
Proof.
  induction l as [|x l IH]; simpl; intros H; auto. rewrite (H x) by auto. now rewrite IH by auto.
Qed.
Lemma dedup_from_firsts l : forall seen,
  dedup_from String.eqb seen l = filter (fun y => negb (memb String.eqb y seen)) (firsts l).
Proof.
  induction l as [|x l IH]; intros seen; simpl; auto.
  destruct (memb String.eqb x seen) eqn:M; simpl.
  - rewrite filter_comm, IH. symmetry. apply filter_all.
    intros y Hy. apply filter_In in Hy as [_ Hy]. destruct (String.eqb_spec y x) as [->|]; auto.
    rewrite M in Hy. discriminate.
  - f_equal. rewrite IH. clear. induction (firsts l) as [|z m IHm]; simpl; auto.
    destruct (String.eqb z x), (memb String.eqb z seen) eqn:Ms; simpl; rewrite ?Ms; simpl;
      rewrite ?IHm; auto; f_equal; exact IHm.
Qed.
Lemma dict_of_list_keys {V} (l : list (string * V)) :
  map fst (dict_of_list String.eqb l) = firsts (map fst l).
Proof.
  unfold dict_of_list. rewrite dict_fold_keys. rewrite (first_fold _ _ []) by auto.
  cbn [map app]. rewrite dedup_from_firsts. now apply filter_all.
Qed.
Lemma firsts_NoDup l : NoDup l -> firsts l = l.
Proof.
  induction 1 as [|x l N D IH]; simpl; auto. rewrite IH. f_equal. apply filter_all.
  intros y Hy. destruct (String.eqb_spec y x) as [->|]; auto.
Qed.


Lemma combine_fst {A B} (l : list A) (m : list B) : length l = length m -> map fst (combine l m) = l.
Proof. revert m. induction l; intros [|y m]; simpl; intros L; try discriminate; auto. f_equal. auto. Qed.

Lemma action_parameters_of ps st st' vs groups tail :
  action_parameters ps st = (st', Ok vs) -> written_vars ps groups tail ->
  parameters_of (assigned groups tail) vs
  /\ (NoDup (map fst (assigned groups tail)) ->
      vs = map (fun p => TVar (mkVar (fst p) (snd p))) (assigned groups tail)).
Proof.
  intros H W. apply action_parameters_st in H as (tl & vars & T & V & _ & ->).
  pose proof (proj1 (typed_list_variable_Ok _ _ _ _ W) T) as (E & L & A).
  rewrite <- E. clear E W.
  pose proof (typed_vars_ok _ _ _ T V) as F.
  assert (Len : length (map fst tl) = length vars).
  { rewrite map_length. clear - F. induction F; simpl; auto. }
  split; [split|].
  - rewrite map_map. cbn [t_name]. transitivity (map fst (dict_of_list String.eqb (combine (map fst tl) vars))).
    2:{ now rewrite dict_of_list_keys, combine_fst. }
    apply map_ext_in.
    intros kv Hkv. assert (D : Forall (fun kv => v_name (snd kv) = fst kv)
      (dict_of_list String.eqb (combine (map fst tl) vars))).
    { apply dict_of_list_Forall. clear - F. induction F as [|p v tl vars [-> _] F IH]; simpl; constructor; auto. }
    rewrite Forall_forall in D. now apply D.
  - intros t Ht. apply in_map_iff in Ht as (kv & <- & Hkv). exists (snd kv). split; auto.
    assert (D : Forall (fun kv => In (v_name (snd kv), v_tags (snd kv)) tl)
      (dict_of_list String.eqb (combine (map fst tl) vars))).
    { apply dict_of_list_Forall. clear - F. induction F as [|p v tl vars [-> _] F IH]; simpl; constructor; auto.
      - left. now destruct p.
      - eapply Forall_impl; [|exact IH]. simpl. auto. }
    rewrite Forall_forall in D. specialize (D _ Hkv). intros gs G. eapply A; eauto.
  - intros N. rewrite dict_of_list_id.
    2:{ exact string_eqb_equiv. }
    2:{ apply NoDupE_string. now rewrite combine_fst. }
    clear - F. induction F as [|p v tl vars [-> _] F IH]; simpl; auto. f_equal. exact IH.
Qed.

(** ** the body *)
Definition params_kept (ps : list (string * var)) (f : form) : Prop :=
  forall v, argument (TVar v) f -> In (v_name v) (map fst ps) ->
            In v (map snd ps).
Definition consts_const (c : gctx) : Prop := forall n v, g_const c n <> Ok (TVar v).

Lemma from_ctx_param c v : consts_const c ->
  Forall (fun kv => v_name (snd kv) = fst kv) (g_params c) -> from_ctx c (TVar v) ->
  In (v_name v) (map fst (g_params c)) -> In v (map snd (g_params c)).
Proof.
  intros C P [(n & G)|[(n & w & [= <-] & G)|(n & w & [= <-] & G & M)]] I.
  - destruct (C _ _ G).
  - apply dict_get_In in G as (k & G & _). apply in_map_iff. exists (k, v). auto.
  - apply mk_var_Ok in M as (-> & _). cbn [v_name] in I. exfalso.
    pose proof (dict_get_memb String.eqb n (g_params c)) as D. rewrite G in D.
    assert (T : memb String.eqb n (map fst (g_params c)) = true) by now apply memb_string_In.
    congruence.
Qed.

Section Body.
  Variable c : gctx.
  Hypothesis C : consts_const c.
  Hypothesis P : Forall (fun kv => v_name (snd kv) = fst kv) (g_params c).
  Let K := params_kept (g_params c).
  Local Ltac inv H := inversion H; subst; clear H.
  Lemma kept_terms ts v : Forall (from_ctx c) ts -> In (TVar v) ts ->
    In (v_name v) (map fst (g_params c)) -> In v (map snd (g_params c)).
  Proof. intros F I. rewrite Forall_forall in F. apply from_ctx_param; auto. Qed.
  Lemma kept_op k ops : Forall K ops -> K (mk_op k ops).
  Proof.
    intros F v A. apply argument_mk_op in A as (f & If & A). rewrite Forall_forall in F.
    exact (F f If v A).
  Qed.
  Lemma kept_pred n ts f : Forall (from_ctx c) ts -> mk_pred n ts = Ok f -> K f.
  Proof. intros F M v A. apply mk_pred_iff in M as [-> _]. inv A. eapply kept_terms; eauto. Qed.
  Lemma kept_eq l r f : from_ctx c l -> from_ctx c r -> mk_eq l r = Ok f -> K f.
  Proof. intros L R M v A. apply mk_eq_iff in M as [-> _]. inv A; eauto using from_ctx_param. Qed.
  Lemma kept_numfun n ts f : Forall (from_ctx c) ts -> mk_numfun n ts = Ok f -> K f.
  Proof.
    intros F M v A. unfold mk_numfun in M. apply bind_Ok in M as (n' & _ & M).
    inv M. inv A. eapply kept_terms; eauto.
  Qed.
  Ltac fin := eauto using kept_pred, kept_eq, kept_numfun;
     try (now intros; apply kept_op); try (intros; intros v A I; inv A; match goal with H : K ?f |- _ => now apply (H v) end).
  Lemma kept_pre s f : emptyor_pregd c s = Ok f -> K f.
  Proof. apply emptyor_pregd_P; fin. intros n v A. inv A. Qed.
  Lemma kept_eff s f : emptyor_effect c s = Ok f -> K f.
  Proof. apply emptyor_effect_P; fin. intros n v A. inv A. Qed.
End Body.

(** ** one action *)
Definition action_sx (n : string) (ps : list sexp) (body : list sexp) : sexp :=
  section_sx ":action" (name_sx n :: SAtom (TKw ":parameters") :: SList ps :: body).

Lemma action_body_inv body st b : action_body body st = Ok b ->
  exists x y, body = [SAtom (TKw ":precondition"); x; SAtom (TKw ":effect"); y]
    /\ emptyor_pregd (domain_ctx st) x = Ok (fst b) /\ emptyor_effect (domain_ctx st) y = Ok (snd b).
Proof.
  unfold action_body. destruct body as [|k1 [|x [|k2 [|y [|]]]]]; try discriminate.
  - destruct (is_kw ":precondition" k1); [intros H; apply bind_Ok in H as (? & _ & H); discriminate|].
    destruct (is_kw ":effect" k1); [intros H; apply bind_Ok in H as (? & _ & H); discriminate|discriminate].
  - destruct (is_kw ":precondition" k1) eqn:K1; [|discriminate].
    destruct (is_kw ":effect" k2) eqn:K2; [|discriminate]. cbn [andb]. intros H.
    apply bind_Ok in H as (p & Hp & H). apply bind_Ok in H as (e & He & H). inversion H; subst.
    destruct k1 as [[]|]; try discriminate. destruct k2 as [[]|]; try discriminate.
    apply String.eqb_eq in K1, K2. subst. exists x, y. auto.
Qed.
Lemma domain_ctx_const st : consts_const (domain_ctx st).
Proof.
  intros n v. cbn [domain_ctx g_const]. destruct (dict_get String.eqb n (s_constants st)); [|discriminate].
  destruct c. discriminate.
Qed.

Lemma action_def_full l st st' a : action_def l st = (st', Ok a) ->
  exists ps x y p e,
    l = [name_sx (a_name a); SAtom (TKw ":parameters"); SList ps;
         SAtom (TKw ":precondition"); x; SAtom (TKw ":effect"); y]
    /\ a_pre a = Some p /\ a_eff a = Some e
    /\ (exists groups tail, written_vars ps groups tail)
    /\ (forall groups tail, written_vars ps groups tail ->
         parameters_of (assigned groups tail) (a_params a)
         /\ (NoDup (map fst (assigned groups tail)) ->
             a_params a = map (fun q => TVar (mkVar (fst q) (snd q))) (assigned groups tail)))
    /\ (forall v, argument (TVar v) p \/ argument (TVar v) e ->
          In (v_name v) (map t_name (a_params a)) -> In (TVar v) (a_params a))
    /\ (x = SList [] -> p = FBin OOr []).
Proof.
  intros H. pose proof (action_params_table _ _ _ _ H) as [PT PA].
  apply action_def_st in H as (n & ps & body & vs & b & -> & P & B & K).
  apply action_body_inv in B as (x & y & -> & Bp & Be).
  unfold mk_action in K. apply bind_Ok in K as (n' & N & K). inversion K; subst a. clear K.
  cbn [a_name a_params a_pre a_eff] in *.
  apply parse_name_Ok' in N as [-> _].
  exists ps, x, y, (fst b), (snd b). split; [reflexivity|]. split; [reflexivity|].
  split; [reflexivity|]. split; [|split; [|split]].
  - pose proof P as P'. apply action_parameters_st in P' as (tl & vars & T & _).
    apply typed_list_variable_iff in T as (g & t & W & _). eauto.
  - intros groups tail W. eapply action_parameters_of; eauto.
  - intros v A I. rewrite PA in *. rewrite map_map in I. cbn [t_name] in I.
    assert (I' : In (v_name v) (map fst (s_params st'))).
    { apply in_map_iff in I as (kv & E & I). apply in_map_iff. exists kv. split; auto.
      rewrite Forall_forall in PT. rewrite <- E. symmetry. now apply PT. }
    assert (J : In v (map snd (s_params st'))).
    { destruct A as [A|A].
      - eapply (kept_pre (domain_ctx st')); eauto using domain_ctx_const.
      - eapply (kept_eff (domain_ctx st')); eauto using domain_ctx_const. }
    apply in_map_iff in J as (kv & <- & J). apply in_map_iff. eauto.
  - intros ->. cbn in Bp. now injection Bp as <-.
Qed.

Lemma terms_eqb_params l ts us : parameters_of l ts -> list_eqb term_eqb ts us = true -> parameters_of l us.
Proof.
  unfold parameters_of. intros [N T] E.
  assert (F : map t_name us = map t_name ts /\ forall t, In t us -> exists v, t = TVar v
     /\ forall gs, In (v_name v, gs) l -> same_set gs (v_tags v)).
  { clear N. revert us E. induction ts as [|t ts IH]; intros [|u us] E; try discriminate.
    - now split.
    - cbn [list_eqb] in E. apply andb_true_iff in E as [E1 E2].
      destruct (IH (fun t H => T t (or_intror H)) us E2) as [I1 I2].
      destruct (T t (or_introl eq_refl)) as (v & -> & V).
      destruct u as [|w]; [discriminate|]. cbn [term_eqb] in E1. unfold var_eqb in E1.
      apply andb_true_iff in E1 as [E3 E4]. apply String.eqb_eq in E3. rewrite set_eqb_string in E4.
      split; [cbn [map t_name]; now rewrite I1, E3|].
      intros t [<-|Ht]; [|now apply I2]. exists w. split; auto. intros gs G x. rewrite <- E3 in G.
      rewrite (V gs G x). apply E4. }
  destruct F as [F1 F2]. split; auto. congruence.
Qed.
Lemma or_nil_eqb f : form_eqb (FBin OOr []) f = true -> f = FBin OOr [].
Proof.
  destruct f; cbn; try discriminate. destruct k; cbn; try discriminate.
  destruct ops; [reflexivity|discriminate].
Qed.

Lemma parsed_actions_params s n l st st' d :
  domain_text s n l -> parse_domain s st = (st', Ok d) ->
  (forall a, In a (d_actions d) ->
     exists ps body, In (action_sx (a_name a) ps body) l
       /\ (exists groups tail, written_vars ps groups tail)
       /\ forall groups tail, written_vars ps groups tail ->
           parameters_of (assigned groups tail) (a_params a)
           /\ (NoDup (map fst (assigned groups tail)) ->
               a_params a = map (fun q => TVar (mkVar (fst q) (snd q))) (assigned groups tail)))
  /\ (forall an ps body, In (action_sx an ps body) l ->
       exists a, In a (d_actions d) /\ a_name a = an
         /\ (exists groups tail, written_vars ps groups tail)
         /\ forall groups tail, written_vars ps groups tail ->
             parameters_of (assigned groups tail) (a_params a)).
Proof.
  intros T H. destruct (parsed_actions _ _ _ _ _ _ T H) as [A1 A2]. split.
  - intros a A. destruct (A1 a A) as (body & s1 & s2 & B & D).
    apply action_def_full in D as (ps & x & y & p & e & -> & _ & _ & W & P & _).
    exists ps. eexists. split; [exact B|]. auto.
  - intros an ps body B. destruct (A2 _ B) as (s1 & s2 & a & D & M).
    apply action_def_full in D as (ps' & x & y & p & e & E & _ & _ & W & P & _).
    injection E as -> -> _. apply memb_In in M as (b & Ib & Eb). unfold action_eqb in Eb.
    rewrite !andb_true_iff in Eb. destruct Eb as (((E1 & E2) & _) & _). apply String.eqb_eq in E1.
    exists b. split; auto. split; auto. split; auto. intros groups tail Wr.
    eapply terms_eqb_params; [|exact E2]. now apply P.
Qed.
Lemma parsed_actions_body s st st' d a p e v :
  parse_domain s st = (st', Ok d) -> In a (d_actions d) -> a_pre a = Some p -> a_eff a = Some e ->
  argument (TVar v) p \/ argument (TVar v) e -> In (v_name v) (map t_name (a_params a)) ->
  In (TVar v) (a_params a).
Proof.
  intros H A Hp He. pose proof (parse_domain_inv _ _ _ _ H) as (n & l & T & _).
  destruct (parsed_actions _ _ _ _ _ _ T H) as [A1 _]. destruct (A1 a A) as (body & s1 & s2 & B & D).
  apply action_def_full in D as (ps & x & y & p' & e' & -> & Ep & Ee & W & P & Q & _).
  rewrite Hp in Ep. rewrite He in Ee. injection Ep as <-. injection Ee as <-. apply Q.
Qed.

(** ** empty preconditions *)
Lemma empty_precondition s n l st st' d an ps eff :
  domain_text s n l -> parse_domain s st = (st', Ok d) ->
  In (action_sx an ps [SAtom (TKw ":precondition"); SList []; SAtom (TKw ":effect"); eff]) l ->
  exists a, In a (d_actions d) /\ a_name a = an /\ a_pre a = Some (FBin OOr []).
Proof.
  intros T H B. destruct (parsed_actions _ _ _ _ _ _ T H) as [_ A2].
  destruct (A2 _ B) as (s1 & s2 & a & D & M).
  apply action_def_full in D as (ps' & x & y & p & e & E & Ep & _ & _ & _ & _ & Z).
  injection E as -> -> <- <-. rewrite (Z eq_refl) in Ep.
  apply memb_In in M as (b & Ib & Eb). unfold action_eqb in Eb.
  rewrite !andb_true_iff in Eb. destruct Eb as (((E1 & _) & E3) & _). apply String.eqb_eq in E1.
  exists b. split; auto. split; auto. rewrite Ep in E3. destruct (a_pre b) as [q|]; [|discriminate].
  cbn [option_eqb] in E3. f_equal. now apply or_nil_eqb.
Qed.
