(** Facts for C53 in general. *)
From Coq Require Import String List Bool Arith Lia.
From Verif Require Import Py Names Reqs Logic Validation Core Lexer TypedList UpdateTags Parser.
From Verif Require Import Spec_Core Spec_Parse Spec_Print Spec_Domain Spec_Features Spec_Declared Spec_Heads Spec_HeadsAll.
From Verif Require Import Py_facts Names_facts Logic_facts Built_facts CoreEq_facts Domain_facts Derived_facts FormText_facts DomainText_facts
  Declared_facts Loose_facts FormatDomain_facts.
Import ListNotations.
Open Scope string_scope.
Open Scope list_scope.

(** what the places give to [n], starting from [acc] *)
Definition given (n : string) (places : list (var * var)) (acc : option (list string)) : option (list string) :=
  fold_left (fun acc vw => if String.eqb n (v_name (fst vw)) then match place_types vw with [] => acc | gs => Some gs end else acc) places acc.

Lemma head_types_given types n : forall vs ws m0 m, length ws = length vs -> head_types types m0 (map TVar vs) (map TVar ws) = Ok m ->
  dict_get String.eqb n m = given n (combine vs ws) (dict_get String.eqb n m0)
  /\ Forall2 (fun v w => v_tags v = [] \/ check_subtypes types (v_tags v) (v_tags w) = Ok tt) vs ws.
Proof.
  induction vs as [|v vs IH]; intros [|w ws] m0 m L H; try discriminate.
  - cbn in H. injection H as <-. split; [reflexivity|constructor].
  - injection L as L. cbn [map head_types] in H. unfold given. cbn [combine fold_left fst snd]. fold (given n (combine vs ws)). unfold place_types. cbn [fst snd t_tags] in *.
    destruct (v_tags v) as [|g gs] eqn:Ev.
    + destruct (IH _ _ _ L H) as [E F]. split; [|constructor; [now left|exact F]]. rewrite E. unfold given. f_equal.
      destruct (v_tags w) as [|h hs]; [now destruct (String.eqb n (v_name v))|]. rewrite dict_get_set_s. reflexivity.
    + apply bind_Ok in H as ([] & C & H). destruct (IH _ _ _ L H) as [E F]. split; [|constructor; [right; rewrite Ev; exact C|exact F]].
      rewrite E. unfold given. f_equal. rewrite dict_get_set_s. reflexivity.
Qed.

Lemma given_spec n places : forall acc,
  match given n places acc with
  | Some gs => last_types places n gs \/ (no_types places n /\ acc = Some gs)
  | None => no_types places n /\ acc = None
  end.
Proof.
  induction places as [|vw places IH]; intros acc.
  - cbn. destruct acc; [right|]; (split; [intros x []|reflexivity]).
  - unfold given. cbn [fold_left]. fold (given n places). set (acc' := if String.eqb n (v_name (fst vw)) then _ else _).
    specialize (IH acc'). unfold given in *. destruct (fold_left _ places acc') as [gs|] eqn:G.
    + destruct IH as [(b & x & a & -> & R)|[N E]].
      * left. exists (vw :: b), x, a. split; [reflexivity|exact R].
      * unfold acc' in E. destruct (String.eqb n (v_name (fst vw))) eqn:Q.
        -- apply String.eqb_eq in Q. destruct (place_types vw) as [|h hs] eqn:PT.
           ++ right. split; [|exact E]. intros x [<-|X]; [now intros _|now apply N].
           ++ injection E as <-. left. exists [], vw, places. split; [reflexivity|]. split; [now symmetry|]. rewrite PT. split; [discriminate|]. split; [intros g; tauto|exact N].
        -- right. split; [|exact E]. intros x [<-|X]; [|now apply N]. intros Y. apply String.eqb_neq in Q. congruence.
    + destruct IH as [N E]. unfold acc' in E. destruct (String.eqb n (v_name (fst vw))) eqn:Q.
      * destruct (place_types vw) as [|h hs] eqn:PT; [|discriminate]. split; [|exact E]. intros x [<-|X]; [now intros _|now apply N].
      * split; [|exact E]. intros x [<-|X]; [|now apply N]. intros Y. apply String.eqb_neq in Q. congruence.
Qed.

(** the same for a declaration that is equal *)
Lemma same_set_nil (a b : list string) : same_set a b -> (a = [] <-> b = []).
Proof.
  intros S. split; intros ->.
  - destruct b as [|g b]; [reflexivity|]. destruct (proj2 (S g)); now left.
  - destruct a as [|g a]; [reflexivity|]. destruct (proj1 (S g)); now left.
Qed.
Lemma place_same v w z : same_var w z -> same_set (place_types (v, w)) (place_types (v, z)).
Proof. intros [_ S]. unfold place_types. cbn [fst snd]. destruct (v_tags v); [exact S|intros h; tauto]. Qed.
Lemma no_types_same n : forall vs ws zs, Forall2 same_var ws zs -> no_types (combine vs ws) n -> no_types (combine vs zs) n.
Proof.
  induction vs as [|v vs IH]; intros ws zs F N; [intros x []|]. destruct F as [|w z ws zs S F]; [intros x []|].
  cbn [combine] in *. intros x [<-|X].
  - intros E. apply (same_set_nil _ _ (place_same v w z S)). apply N; [now left|exact E].
  - apply (IH ws zs F); [|exact X]. intros y Y. apply N. now right.
Qed.
Lemma last_types_same n gs : forall vs ws zs, Forall2 same_var ws zs -> last_types (combine vs ws) n gs -> last_types (combine vs zs) n gs.
Proof.
  induction vs as [|v vs IH]; intros ws zs F (b & x & a & E & N & P & S & O); [destruct b; discriminate|].
  destruct F as [|w z ws zs Sw F]; [destruct b; discriminate|]. cbn [combine] in *. destruct b as [|y b].
  - injection E as <- <-. exists [], (v, z), (combine vs zs). split; [reflexivity|]. split; [exact N|]. pose proof (place_same v w z Sw) as Q. split; [|split].
    + intros Z. apply P. now apply (same_set_nil _ _ Q).
    + intros g. rewrite (S g). apply Q.
    + apply (no_types_same n vs ws zs F). exact O.
  - injection E as _ E. destruct (IH ws zs F) as (b' & x' & a' & E' & R); [exists b, x, a; auto|].
    exists ((v, z) :: b'), x', a'. rewrite E'. split; [reflexivity|exact R].
Qed.

Lemma head_general d st h c st' x : st_for d st -> derived_def [h; c] st = (st', Ok x) ->
  exists vs us ws, atomic_formula_skeleton h = Ok (dp_name x, map TVar vs)
    /\ dp_terms x = map TVar us /\ In (dp_name x, map TVar ws) (d_predicates d)
    /\ head_in_general (d_types d) vs ws us.
Proof.
  intros W H. unfold derived_def, bindM, ret, reads in H.
  destruct (atomic_formula_skeleton h) as [head|] eqn:A; [|discriminate].
  destruct (gd _ c) as [cond|]; [|discriminate]. apply (f_equal snd) in H. cbn [snd] in H. unfold derived_callback in H.
  destruct (dict_get String.eqb (fst head) (s_predicates st)) as [def|] eqn:Dg; [|discriminate].
  apply bind_Ok in H as ([] & L & H). apply bind_Ok in H as (m & M & H). apply bind_Ok in H as (p & U & H).
  apply bind_Ok in H as (cond' & C & H). simpl in U. apply bind_Ok in U as (ts' & T & U). apply mk_pred_Ok in U. subst p.
  inversion H; subst x. cbn [dp_terms dp_cond dp_name] in *. clear H.
  apply replace_terms_retag in T.
  destruct (Nat.eqb (length (snd def)) (length (snd head))) eqn:Q; [|discriminate]. apply Nat.eqb_eq in Q. clear L.
  destruct (skeleton_ok _ _ A) as (vs & Ev & Ln & V1 & V2 & V3).
  destruct (sf_preds _ _ W _ _ Dg) as (En & (ws & Ew & _ & W1 & W2 & W3) & Md).
  rewrite Ev in T, M, Q. rewrite Ew in M, Q. rewrite !map_length in Q.
  apply (memb_In atom_eqb) in Md as ((dn & ts) & Id & Qd). unfold atom_eqb in Qd. apply andb_true_iff in Qd as [Q1 Q2].
  cbn [fst snd] in Q1, Q2. apply String.eqb_eq in Q1. rewrite En in Q1. subst dn.
  apply list_eqb_Forall2 in Q2. rewrite Ew in Q2.
  assert (Z : exists zs, ts = map TVar zs /\ Forall2 same_var ws zs).
  { clear - Q2. revert ts Q2. induction ws as [|w ws IH]; intros ts Q2; inversion Q2 as [|? t ? ts' E F]; subst; [exists []; split; [reflexivity|constructor]|].
    destruct (IH _ F) as (zs & -> & Z). destruct t as [|z]; [discriminate|]. exists (z :: zs). split; auto. constructor; auto.
    now apply same_var_eqb. }
  destruct Z as (zs & -> & Z). destruct head as [hn hts]. cbn [fst snd] in *. subst hts.
  pose (us := map (fun v => match lookup m (v_name v) with Some gs => mkVar (v_name v) gs | None => v end) vs).
  exists vs, us, zs. split; auto. split.
  { rewrite T. unfold us. rewrite !map_map. apply map_ext. intros v. cbn. now destruct (lookup m (v_name v)). }
  split; auto. split; [rewrite <- (Forall2_length _ _ _ Z); now symmetry|]. split.
  { unfold us. rewrite map_map. apply map_ext. intros v. now destruct (lookup m (v_name v)). }
  destruct (head_types_given _ "" vs ws [] m Q M) as [_ Fc]. split.
  - clear - Fc Z W W1. revert ws zs Fc Z W1. induction vs as [|v vs IH]; intros ws zs Fc Z W1 vw I; [destruct I|].
    destruct Z as [|w z ws zs Sw Z]; [destruct I|]. inversion Fc as [|? ? ? ? F1 F2]; inversion W1 as [|? ? L1 L2]; subst. destruct I as [<-|I]; [|eapply IH; eauto].
    unfold agrees_with_declaration. cbn [fst snd]. destruct F1 as [F1|F1]; [now left|right]. destruct Sw as [_ Sw].
    destruct (subtypes_arg d st _ _ W (proj1 (proj2 L1)) F1) as [E|E].
    + left. now apply (same_set_nil _ _ Sw).
    + right. intros g G. destruct (E g G) as [Y|(p & Y1 & Y2)]; [left; now apply Sw|right; exists p; split; auto; now apply Sw].
  - intros u I. unfold us in I. apply in_map_iff in I as (v & <- & I).
    destruct (head_types_given _ (v_name v) vs ws [] m Q M) as [G _]. pose proof (given_spec (v_name v) (combine vs ws) (dict_get String.eqb (v_name v) [])) as S.
    rewrite <- G in S. unfold lookup. destruct (dict_get String.eqb (v_name v) m) as [gs|]; cbn [option_map v_name v_tags].
    + left. destruct S as [S|[_ S]]; [|discriminate]. apply (last_types_same _ _ vs ws zs Z). destruct S as (b & y & a & E & N & P & S & O).
      exists b, y, a. split; [exact E|]. split; [exact N|]. split; [exact P|]. split; [|exact O]. intros g. rewrite <- (S g). apply dedup_string_In.
    + right. destruct S as [S _]. split; [now apply (no_types_same _ vs ws zs Z)|].
      clear - S I Q. revert ws Q S. induction vs as [|y vs IH]; intros [|w ws] Q S; try discriminate; [destruct I|]. cbn [combine] in S. destruct I as [->|I].
      * specialize (S (v, w) (or_introl eq_refl) eq_refl). unfold place_types in S. cbn [fst snd] in S. now destruct (v_tags v).
      * apply (IH I ws); [now injection Q|]. intros x X. apply S. now right.
Qed.
