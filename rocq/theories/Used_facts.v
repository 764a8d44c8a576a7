(** The constants that a parsed domain mentions. *)
From Coq Require Import String List Bool Arith.
From Verif Require Import Py Names Reqs Logic Validation Core Lexer TypedList UpdateTags Parser.
From Verif Require Import Spec Spec_Core Spec_Parse Spec_Same Spec_Apart.
From Verif Require FormatDomain_facts.
From Verif Require Import Py_facts Logic_facts Built_facts Names_facts CoreEq_facts GD_facts Inst_facts Domain_facts Apart_facts Sublist_facts.
Import ListNotations.
Open Scope string_scope.
Open Scope list_scope.

Lemma replace_const m t n g : replace_term m t = Ok (TConst n g) -> t = TConst n g.
Proof.
  destruct t as [n' g'|v]; cbn; [congruence|]. destruct (dict_get String.eqb (v_name v) m); [|congruence].
  intros H. apply bind_Ok in H as (w & _ & H). discriminate.
Qed.
Lemma replace_consts m ts us n g : mapR (replace_term m) ts = Ok us -> In (TConst n g) us -> In (TConst n g) ts.
Proof.
  intros H. apply mapR_Ok in H. induction H as [|t u ts us E H IH]; intros I; [destruct I|].
  destruct I as [->|I]; [left; now apply replace_const in E|right; auto].
Qed.
Local Ltac inv H := inversion H; subst; clear H.
Lemma update_const f : forall m f' n g, update_type_tags m f = Ok f' -> argument (TConst n g) f' -> argument (TConst n g) f.
Proof.
  induction f as [nm ts|l r|nm ts|v|k ops IH|k ops IH|h IH|q vs c IH|c e IHc IHe|vs e IH] using form_ind'; intros m f' n g U A;
    cbn [update_type_tags] in U; try discriminate.
  - apply bind_Ok in U as (ts' & T & U). apply mk_pred_Ok in U. subst. inv A. constructor. eapply replace_consts; eauto.
  - apply bind_Ok in U as (l' & L & U). apply bind_Ok in U as (r' & R & U). apply mk_eq_iff in U as [-> _]. inv A.
    + apply replace_const in L. subst. apply A_eq_l.
    + apply replace_const in R. subst. apply A_eq_r.
  - apply bind_Ok in U as (ts' & T & U). unfold mk_numfun in U. apply bind_Ok in U as (n' & N & U). inv U. inv A.
    assert (J : In (TConst n g) ts) by (eapply replace_consts; eauto). now constructor.
  - inv U. inv A.
  - apply bind_Ok in U as (ops' & M & U). inv U. apply argument_mk_op in A as (f & Hf & A). apply mapR_Ok in M.
    clear - IH M Hf A. induction M as [|x y ops ops' E M IHM]; [destruct Hf|]. inv IH. destruct Hf as [->|Hf].
    + eapply A_binfun; [left; reflexivity|eauto].
    + specialize (IHM H2 Hf). inv IHM. eapply A_binfun; [right; eassumption|assumption].
  - apply bind_Ok in U as (ops' & M & U). inv U. apply argument_mk_op in A as (f & Hf & A). apply mapR_Ok in M.
    clear - IH M Hf A. induction M as [|x y ops ops' E M IHM]; [destruct Hf|]. inv IH. destruct Hf as [->|Hf].
    + eapply A_bin; [left; reflexivity|eauto].
    + specialize (IHM H2 Hf). inv IHM. eapply A_bin; [right; eassumption|assumption].
  - apply bind_Ok in U as (h' & M & U). inv U. inv A. constructor. eauto.
  - apply bind_Ok in U as (c' & M & U). inv U. inv A. constructor. eauto.
Qed.
Lemma derived_constants body st st' x n g : derived_def body st = (st', Ok x) -> argument (TConst n g) (dp_cond x) ->
  In (n, g) (map snd (s_constants st)).
Proof.
  intros H A. destruct body as [|h [|c [|]]]; try discriminate.
  unfold derived_def, bindM, ret, reads in H. destruct (atomic_formula_skeleton h) as [head|]; [|discriminate].
  destruct (gd _ c) as [cond|] eqn:G; [|discriminate]. apply (f_equal snd) in H. cbn [snd] in H. unfold derived_callback in H.
  destruct (dict_get String.eqb (fst head) (s_predicates st)) as [def|] eqn:Dg; [|discriminate].
  apply bind_Ok in H as ([] & L & H). apply bind_Ok in H as (m & M & H). apply bind_Ok in H as (p & U & H).
  apply bind_Ok in H as (cond' & C & H). destruct p; inv H. cbn [dp_cond] in A.
  exact (K_gd _ _ _ G n g (update_const _ _ _ _ _ C A)).
Qed.
Lemma used_constants s d : parse_domain_fresh s = Ok d ->
  (forall a n g, In a (d_actions d) -> uses_constant a n g -> In (n, g) (d_constants d)) /\
  (forall x n g, In x (d_derived d) -> argument (TConst n g) (dp_cond x) -> In (n, g) (d_constants d)).
Proof.
  intros H. pose proof H as P. unfold parse_domain_fresh in P. destruct (parse_domain s init_dstate) as [st' rr] eqn:E. cbn [snd] in P. subst rr.
  apply accepted_shape in E as (nm & rq & ty & cs & ps & fs & defs & T & F).
  apply (accepted_iff _ _ _ _ _ _ _ _ T F) in H as (st1 & r & t & c & p & f & ys & Hh & Hf & Hy & Hd).
  destruct (header_constants _ _ _ _ _ _ _ _ _ Hh) as [C1 C2].
  pose proof Hd as Hd'. apply mk_domain_inv in Hd' as (_ & _ & _ & _ & _ & Ec & _ & Ed & _ & Ea & _).
  rewrite Ec, C2, C1. split.
  - intros a n g A U. rewrite Ea in A. apply dedup_In in A. apply actions_in_In in A. apply (map_Ok_In _ _ _ _ Hy) in A as (q & _ & R).
    apply read_facts in R as [_ R]. auto.
  - intros a n g A U. rewrite Ed in A. apply dedup_In in A. apply derived_in_In in A. apply (map_Ok_In _ _ _ _ Hy) in A as (q & _ & R).
    assert (G : forall x st0 s1, structure_def x st0 = (s1, Ok (inr a)) -> s_constants st0 = s_constants st1 -> In (n, g) (map snd (s_constants st1))).
    { intros z st0 s1 Z E. apply structure_def_st in Z as [(b & a' & _ & Q & Z)|(b & a' & _ & Q & Z)]; [discriminate|]. injection Q as <-.
      rewrite <- E. eapply derived_constants; eauto. }
    destruct q as [x|o x]; cbn [read] in R.
    { destruct (structure_def x st1) as [s1 rr] eqn:E. cbn [snd] in R. subst rr. eapply G; eauto. }
    destruct (structure_def x (ctx_state st1 o)) as [s1 rr] eqn:E. cbn [snd] in R. subst rr. eapply G; eauto.
    destruct o as [z|]; [|reflexivity]. cbn [ctx_state]. now destruct (structure_base z st1) as [[Q _] _].
Qed.
Lemma used_heads s d x : parse_domain_fresh s = Ok d -> In x (d_derived d) ->
  exists ws, In (dp_name x, ws) (d_predicates d) /\ length ws = length (dp_terms x).
Proof.
  intros P I. destruct (FormatDomain_facts.parsed_domain_parts s d P) as (n & l & _ & PP).
  destruct (FormatDomain_facts.pp_derived _ _ PP x I) as (body & s1 & s2 & _ & H & W).
  destruct body as [|h [|c [|]]]; try discriminate.
  unfold derived_def, bindM, ret, reads in H. destruct (atomic_formula_skeleton h) as [head|]; [|discriminate].
  destruct (gd _ c) as [cond|]; [|discriminate]. apply (f_equal snd) in H. cbn [snd] in H. unfold derived_callback in H.
  destruct (dict_get String.eqb (fst head) (s_predicates s1)) as [def|] eqn:Dg; [|discriminate].
  apply bind_Ok in H as ([] & L & H). apply bind_Ok in H as (m & M & H). apply bind_Ok in H as (p & U & H).
  apply bind_Ok in H as (cond' & C & H). simpl in U. apply bind_Ok in U as (ts' & T & U). apply mk_pred_Ok in U. subst p.
  inv H. cbn [dp_terms dp_name]. apply mapR_Ok in T. apply Forall2_length in T.
  destruct (Nat.eqb (length (snd def)) (length (snd head))) eqn:Q; [|discriminate]. apply Nat.eqb_eq in Q.
  destruct (FormatDomain_facts.sf_preds _ _ W _ _ Dg) as (En & _ & Md).
  apply (memb_In atom_eqb) in Md as ((dn & ts) & Id & Qd). unfold atom_eqb in Qd. apply andb_true_iff in Qd as [Q1 Q2].
  cbn [fst snd] in Q1, Q2. apply String.eqb_eq in Q1. apply list_eqb_Forall2 in Q2. apply Forall2_length in Q2.
  exists ts. split; [rewrite <- En, Q1; exact Id|congruence].
Qed.
