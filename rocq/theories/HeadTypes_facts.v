(** Facts for C53: the types of the head of a derived predicate. *)
From Coq Require Import String List Bool Arith Lia.
From Verif Require Import Py Names Reqs Logic Validation Core Lexer TypedList UpdateTags Parser.
From Verif Require Import Spec_Core Spec_Parse Spec_Print Spec_Domain Spec_Features Spec_Declared Spec_Heads.
From Verif Require Import Py_facts Names_facts Logic_facts Built_facts CoreEq_facts Domain_facts Derived_facts FormText_facts DomainText_facts
  Declared_facts Loose_facts FormatDomain_facts.
Import ListNotations.
Open Scope string_scope.
Open Scope list_scope.

Lemma head_written d st h c st' x : st_for d st -> derived_def [h; c] st = (st', Ok x) -> NoDup (map t_name (dp_terms x)) ->
  exists vs us ws, atomic_formula_skeleton h = Ok (dp_name x, map TVar vs)
    /\ dp_terms x = map TVar us /\ In (dp_name x, map TVar ws) (d_predicates d)
    /\ head_of (d_types d) vs ws us.
Proof.
  intros W H Wn.
  unfold derived_def, bindM, ret, reads in H.
  destruct (atomic_formula_skeleton h) as [head|] eqn:A; [|discriminate].
  destruct (gd _ c) as [cond|]; [|discriminate]. apply (f_equal snd) in H. cbn [snd] in H. unfold derived_callback in H.
  destruct (dict_get String.eqb (fst head) (s_predicates st)) as [def|] eqn:Dg; [|discriminate].
  apply bind_Ok in H as ([] & L & H). apply bind_Ok in H as (m & M & H). apply bind_Ok in H as (p & U & H).
  apply bind_Ok in H as (cond' & C & H). simpl in U. apply bind_Ok in U as (ts' & T & U). apply mk_pred_Ok in U. subst p.
  inversion H; subst x. cbn [dp_terms dp_cond dp_name] in *. clear H.
  apply replace_terms_retag in T.
  destruct (Nat.eqb (length (snd def)) (length (snd head))) eqn:Q; [|discriminate]. apply Nat.eqb_eq in Q. clear L.
  destruct (skeleton_ok _ _ A) as (vs & Ev & Ln & V1 & V2 & V3).
  destruct (sf_preds _ _ W _ _ Dg) as (En & (ws & Ew & _ & W1 & W2 & W3) & Md).
  rewrite Ev in T, M, Q. rewrite Ew in M, Q. rewrite !map_length in Q.
  assert (Nv : NoDup (map v_name vs)).
  { replace (map v_name vs) with (map t_name ts'); auto. rewrite T, !map_map. apply map_ext. intros v. cbn.
    now destruct (lookup m (v_name v)). }
  destruct (head_retag _ _ _ _ Nv Q M) as (us & Eu & Nu & Fu & Fc). rewrite Eu in T. subst ts'.
  apply (memb_In atom_eqb) in Md as ((dn & ts) & Id & Qd). unfold atom_eqb in Qd. apply andb_true_iff in Qd as [Q1 Q2].
  cbn [fst snd] in Q1, Q2. apply String.eqb_eq in Q1. rewrite En in Q1. subst dn.
  apply list_eqb_Forall2 in Q2. rewrite Ew in Q2.
  assert (Z : exists zs, ts = map TVar zs /\ Forall2 same_var ws zs).
  { clear - Q2. revert ts Q2. induction ws as [|w ws IH]; intros ts Q2; inversion Q2 as [|? t ? ts' E F]; subst; [exists []; split; [reflexivity|constructor]|].
    destruct (IH _ F) as (zs & -> & Z). destruct t as [|z]; [discriminate|]. exists (z :: zs). split; auto. constructor; auto.
    now apply same_var_eqb. }
  destruct Z as (zs & -> & Z). destruct head as [hn hts]. cbn [fst snd] in *. subst hts.
  exists vs, us, zs. split; auto. split; auto. split; auto.
  assert (ST : forall v w, v_tags v = [] \/ check_subtypes (s_types st) (v_tags v) (v_tags w) = Ok tt -> Forall legal_type (v_tags w) ->
     v_tags v = [] \/ v_tags w = [] \/ forall g, In g (v_tags v) -> In g (v_tags w) \/ exists p, In (g, Some p) (d_types d) /\ In p (v_tags w)).
  { intros v w [E|E] Lw; auto. right. eapply subtypes_arg; eauto. }
  split; [rewrite <- (Forall2_length _ _ _ Z); now symmetry|].
  clear - Fu Fc Nu Q Z ST W1 V1. revert ws zs us Fu Fc Nu Q Z W1.
  induction vs as [|v vs IH]; intros [|w ws] zs us Fu Fc Nu Q Z W1; try discriminate; cbn in Fu;
    inversion Fu as [|? u ? us' X F]; inversion Z as [|? z ? zs' Zw Zs]; subst.
  - constructor.
  - injection Nu as Nu1 Nu2. inversion Fc as [|? ? ? ? Fc1 Fc2]; inversion W1 as [|? ? Lw Lw']; inversion V1 as [|? ? Lv Lv']; subst.
    constructor; [|eapply IH; eauto]. unfold head_arg_of. cbn [fst snd] in *. destruct Zw as [_ Zw].
    assert (Sw : forall l, same_set (dedup String.eqb l) l) by (intros l g; apply dedup_string_In).
    assert (Ez : v_tags w = [] <-> v_tags z = []).
    { clear - Zw. split; intros E; rewrite E in Zw.
      - destruct (v_tags z) as [|g gs]; auto. destruct (proj2 (Zw g)); now left.
      - destruct (v_tags w) as [|g gs]; auto. destruct (proj1 (Zw g)); now left. }
    split; auto. destruct X as [(X1 & X2 & X3)|[(X1 & X2 & X3)|(X1 & X3)]].
    + rewrite X3. split; [|tauto]. intros _. apply Ez in X2. rewrite X2. intros g. tauto.
    + rewrite X3. split; [|tauto]. intros _ g. rewrite (Sw _ g). apply Zw.
    + rewrite X3. split; [tauto|]. intros _. split; [apply Sw|].
      destruct (ST v w Fc1 (proj1 (proj2 Lw))) as [E|[E|E]]; [tauto|left; tauto|right].
      intros g G. destruct (E g G) as [Y|(p & Y1 & Y2)]; [left; now apply Zw|right; exists p; split; auto; now apply Zw].
Qed.
