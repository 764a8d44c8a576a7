(** The number of iterations of find_cycle. *)
From Coq Require Import Ascii String List Bool Lia PeanoNat Relations.
From Verif Require Import Py Names Reqs Logic Validation Py_facts Spec Spec_Core Spec_Cost Cycle_facts Names_facts Validation_facts.
Import ListNotations.
Open Scope string_scope.
Open Scope list_scope.

Lemma rounds_S {St R} (step : St -> St + R) n s :
  rounds step (S n) s = match step s with inl s' => rounds step n s' | inr r => inr r end.
Proof. reflexivity. Qed.
Lemma rounds_add {St R} (step : St -> St + R) n m : forall s s',
  rounds step n s = inl s' -> rounds step (n + m) s = rounds step m s'.
Proof.
  induction n; intros s s' H; [injection H as ->; reflexivity|].
  change (S n + m) with (S (n + m)). rewrite rounds_S in *.
  destruct (step s); [eauto|discriminate].
Qed.
Lemma rounds_le {St R} (step : St -> St + R) n m : forall s s',
  m <= n -> rounds step n s = inl s' -> exists s'', rounds step m s = inl s''.
Proof.
  revert n. induction m; intros n s s' L H; [eexists; reflexivity|].
  destruct n; [lia|]. rewrite rounds_S in *.
  destruct (step s); [|discriminate]. eapply IHm; [|exact H]. lia.
Qed.
Lemma rounds_more {St R} (step : St -> St + R) n m : forall s r,
  n <= m -> rounds step n s = inr r -> rounds step m s = inr r.
Proof.
  revert m. induction n; intros m s r L H; [discriminate|].
  destruct m; [lia|]. rewrite rounds_S in *.
  destruct (step s); [|exact H]. apply IHn; [lia|exact H].
Qed.

(** rounds and the loops of the model *)
Lemma loop_rounds {St R} (step : St -> St + R) n : forall s, loop step n s = rounds step (2 ^ n) s.
Proof.
  induction n; intros s.
  - cbn. destruct (step s); reflexivity.
  - cbn [loop]. rewrite IHn. replace (2 ^ S n) with (2 ^ n + 2 ^ n) by (cbn; lia).
    destruct (rounds step (2 ^ n) s) eqn:E.
    + rewrite IHn. symmetry. now apply rounds_add.
    + symmetry. eapply rounds_more; [|exact E]. lia.
Qed.
Lemma answers_run g n r : answers_within g n r -> exists m, find_cycle_run m g = Some r.
Proof.
  intros H. exists n. unfold find_cycle_run. rewrite loop_rounds.
  change (mkFc (map fst g) [] []) with (fc_start g).
  rewrite (rounds_more _ n _ _ r); auto. apply Nat.lt_le_incl, Nat.pow_gt_lin_r. lia.
Qed.

(** ** one successor *)
Section One.
  Variable g : graph.
  Hypothesis One : one_successor g.
  Notation K := (length g).

  Definition entry (x : string * list string) : Prop :=
    NoDup (snd x) /\ incl (snd x) (map fst g).
  Definition single (s : fc_state) : Prop :=
    match fc_stack s with [] => True | [x] => entry x | _ => False end.
  Definition left (s : fc_state) : nat :=
    match fc_stack s with [] => 0 | x :: _ => K + 1 - length (snd x) end
    + length (fc_todo s) * (K + 2).

  Lemma single_step s s' : single s -> fc_step g s = inl s' -> single s' /\ left s' < left s.
  Proof.
    unfold single, left, fc_step. destruct s as [td [|(n, p) st] vs]; cbn [fc_stack fc_todo fc_visited].
    - intros _. destruct td as [|a td]; [discriminate|].
      destruct (memb String.eqb a vs); intros H; injection H as <-; cbn [fc_stack fc_todo length snd].
      + split; auto. lia.
      + split; [split; [constructor|intros x []]|]. lia.
    - destruct st; [|tauto]. intros [ND I]. cbn [snd] in *.
      destruct (memb String.eqb n p) eqn:M; [discriminate|]. apply memb_string_not_In in M.
      assert (LP : length p <= K).
      { rewrite <- (map_length fst g). now apply NoDup_incl_length. }
      intros H. injection H as <-. cbn [fc_stack fc_todo]. rewrite app_nil_r.
      destruct (dict_get String.eqb n g) as [[ns|]|] eqn:G; cbn [length snd]; try (split; auto; lia).
      apply dict_get_In in G as (k & Hk & E). apply String.eqb_eq in E. subst k.
      pose proof (One _ _ Hk) as L1.
      destruct ns as [|x [|y ns]]; cbn in L1; try lia; cbn [map rev app length snd].
      + split; auto. lia.
      + assert (En : entry (x, p ++ [n])).
        { split; cbn.
          - apply (Permutation.Permutation_NoDup (l := n :: p)).
            + apply Permutation.Permutation_cons_append.
            + now constructor.
          - apply incl_app; auto. intros a [<-|[]]. apply in_map_iff. now exists (n, Some [x]). }
        split; auto. rewrite app_length. cbn. lia.
  Qed.
  Lemma single_rounds n : forall s, single s -> left s < n -> exists r, rounds (fc_step g) n s = inr r.
  Proof.
    induction n; intros s W L; [lia|]. rewrite rounds_S.
    destruct (fc_step g s) eqn:E; [|eauto].
    destruct (single_step _ _ W E). apply IHn; auto. lia.
  Qed.
  Lemma one_successor_rounds : exists r, answers_within g ((K + 1) * (K + 1)) r.
  Proof.
    apply single_rounds; [exact Logic.I|]. unfold left. cbn. rewrite map_length. lia.
  Qed.
End One.

Lemma types_graph_keys' d : map fst (types_graph d) = map fst d.
Proof. unfold types_graph. rewrite map_map. reflexivity. Qed.
Lemma types_one_successor d : one_successor (types_graph d).
Proof.
  intros k ns H. apply in_map_iff in H as ((a, [p|]) & E & _); injection E as <- <-; cbn; lia.
Qed.

(** ** a complete graph: node [k] has the successors [0 .. k - 1] *)
Fixpoint mark (k : nat) : string := match k with O => "x" | S k' => String "x"%char (mark k') end.
Fixpoint below (k : nat) : list nat := match k with O => [] | S k' => k' :: below k' end.
Definition full (m : nat) : graph := map (fun k => (mark k, Some (map mark (below k)))) (below (S m)).

Lemma mark_inj a : forall b, mark a = mark b -> a = b.
Proof.
  assert (N : forall k, mark k <> "") by (intros []; discriminate).
  induction a; intros [|b] H; auto.
  - cbn in H. injection H as H. now destruct (N b).
  - cbn in H. injection H as H. now destruct (N a).
  - f_equal. apply IHa. cbn in H. now injection H.
Qed.
Lemma below_In k j : In j (below k) <-> j < k.
Proof.
  induction k; cbn; [lia|]. rewrite IHk. lia.
Qed.
Lemma below_length k : length (below k) = k.
Proof. induction k; cbn; auto. Qed.
Lemma below_NoDup k : NoDup (below k).
Proof. induction k; cbn; constructor; auto. rewrite below_In. lia. Qed.
Lemma full_keys m : map fst (full m) = map mark (below (S m)).
Proof. unfold full. rewrite map_map. apply map_ext. reflexivity. Qed.
Lemma full_NoDup m : NoDup (map fst (full m)).
Proof.
  rewrite full_keys. apply FinFun.Injective_map_NoDup; [exact mark_inj|apply below_NoDup].
Qed.
Lemma full_get m k : k <= m -> dict_get String.eqb (mark k) (full m) = Some (Some (map mark (below k))).
Proof.
  intros L. apply (dict_get_In_iff String.eqb string_eqb_equiv); [apply NoDupE_string, full_NoDup|].
  unfold full. apply in_map_iff. exists k. split; auto. apply below_In. lia.
Qed.
Lemma full_edge m a b : edge (full m) a b -> exists i j, a = mark i /\ b = mark j /\ j < i <= m.
Proof.
  intros (ns & H & B). unfold full in H. apply in_map_iff in H as (i & E & I). injection E as <- <-.
  apply in_map_iff in B as (j & <- & J). apply below_In in I, J. exists i, j. repeat split; auto; lia.
Qed.
Lemma full_acyclic m : acyclic (full m).
Proof.
  assert (H : forall a b, Relation_Operators.clos_trans _ (edge (full m)) a b ->
              exists i j, a = mark i /\ b = mark j /\ j < i).
  { induction 1 as [a b H|a b c H1 IH1 H2 IH2].
    - apply full_edge in H as (i & j & -> & -> & L). exists i, j. repeat split; auto; lia.
    - destruct IH1 as (i & j & -> & -> & L), IH2 as (i' & j' & E & -> & L'). apply mark_inj in E. subst.
      exists i, j'. repeat split; auto; lia. }
  intros n C. apply H in C as (i & j & -> & E & L). apply mark_inj in E. lia.
Qed.

Fixpoint total (l : list nat) : nat := match l with [] => 0 | k :: r => 2 ^ k + total r end.
Lemma total_below k : S (total (below k)) = 2 ^ k.
Proof. induction k; cbn; auto. lia. Qed.
Lemma total_app l m : total (l ++ m) = total l + total m.
Proof. induction l; cbn; lia. Qed.
Lemma total_rev l : total (rev l) = total l.
Proof. induction l; cbn; auto. rewrite total_app, IHl. cbn. lia. Qed.

Lemma full_walk m k : k <= m -> forall p st td vs, (forall j, j <= k -> ~ In (mark j) p) ->
  exists vs', rounds (fc_step (full m)) (2 ^ k) (mkFc td ((mark k, p) :: st) vs) = inl (mkFc td st vs').
Proof.
  induction k as [k IH] using Wf_nat.lt_wf_ind. intros L p st td vs F.
  assert (All : forall l q vs0, (forall j, In j l -> j < k) -> (forall j, j < k -> ~ In (mark j) q) ->
    exists vs', rounds (fc_step (full m)) (total l) (mkFc td (map (fun j => (mark j, q)) l ++ st) vs0)
                = inl (mkFc td st vs')).
  { induction l as [|j l IHl]; intros q vs0 B Q; [eexists; reflexivity|].
    cbn [total map app].
    destruct (IH j (B j (or_introl eq_refl))) with (p := q) (st := map (fun j => (mark j, q)) l ++ st) (td := td) (vs := vs0)
      as (vs1 & E1).
    { specialize (B j (or_introl eq_refl)). lia. }
    { intros i Hi. apply Q. specialize (B j (or_introl eq_refl)). lia. }
    rewrite (rounds_add _ _ _ _ _ E1). apply IHl; auto. intros; apply B; now right. }
  rewrite <- total_below, rounds_S. unfold fc_step at 1. cbn [fc_stack fc_todo fc_visited].
  destruct (memb String.eqb (mark k) p) eqn:M.
  { apply memb_string_In in M. destruct (F k); auto. }
  rewrite full_get by auto. rewrite map_map, <- map_rev, <- total_rev.
  apply All.
  - intros j Hj. apply in_rev in Hj. now apply below_In.
  - intros j Hj. rewrite in_app_iff. intros [H|[H|[]]]; [apply (F j); auto; lia|].
    apply mark_inj in H. lia.
Qed.

Lemma full_running m : still_running (full m) (2 ^ m).
Proof.
  destruct (full_walk m m (le_n m) [] [] (map mark (below m)) []) as (vs & E); [intros ? ? []|].
  apply rounds_le with (n := S (2 ^ m)) (s' := mkFc (map mark (below m)) [] vs); [lia|].
  rewrite rounds_S. unfold fc_start. rewrite full_keys. cbn [below map].
  unfold fc_step at 1. cbn [fc_stack fc_todo fc_visited memb]. exact E.
Qed.
Lemma full_length m : length (full m) = m + 1.
Proof. unfold full. rewrite map_length, below_length. lia. Qed.
Lemma full_edges m : 2 * edges (full m) = m * (m + 1).
Proof.
  unfold edges, full. rewrite map_map. cbn [snd].
  induction m; [reflexivity|]. cbn [below map list_sum fold_right] in *.
  change (fold_right Nat.add 0) with list_sum in *.
  rewrite !map_length, !below_length in *. cbn [below map length] in *. rewrite ?map_length, ?below_length in *. lia.
Qed.

(** ** a line of types, every type after its parent *)
Definition line_type (k : nat) : string * option string :=
  (mark k, match k with O => None | S j => Some (mark j) end).
Definition line (m : nat) : types_dict := map line_type (seq 0 m).

Lemma line_keys m : map fst (line m) = map mark (seq 0 m).
Proof. unfold line. rewrite map_map. apply map_ext. reflexivity. Qed.
Lemma line_NoDup m : NoDup (map fst (line m)).
Proof. rewrite line_keys. apply FinFun.Injective_map_NoDup; [exact mark_inj|apply seq_NoDup]. Qed.
Lemma line_get m k : k < m ->
  dict_get String.eqb (mark k) (types_graph (line m)) =
  Some (Some (match k with O => [] | S j => [mark j] end)).
Proof.
  intros L. apply (dict_get_In_iff String.eqb string_eqb_equiv).
  - apply NoDupE_string. unfold types_graph. rewrite map_map. apply line_NoDup.
  - unfold types_graph. apply in_map_iff. exists (line_type k). split; [destruct k; reflexivity|].
    unfold line. apply in_map_iff. exists k. split; auto. apply in_seq. lia.
Qed.
Lemma line_walk m k : k < m -> forall p td vs, (forall j, j <= k -> ~ In (mark j) p) ->
  exists vs', rounds (fc_step (types_graph (line m))) (S k) (mkFc td [(mark k, p)] vs) = inl (mkFc td [] vs') /\
              incl vs' (map mark (seq 0 (S k)) ++ vs).
Proof.
  induction k as [|k IH]; intros L p td vs F; rewrite rounds_S; unfold fc_step at 1; cbn [fc_stack fc_todo fc_visited];
    (destruct (memb String.eqb _ p) eqn:M; [apply memb_string_In in M; edestruct F; [apply le_n|exact M]|]);
    rewrite line_get by auto; cbn [map rev app].
  - eexists. split; [reflexivity|]. cbn. intros x Hx. exact Hx.
  - destruct (IH ltac:(lia) (p ++ [mark (S k)]) td (mark (S k) :: vs)) as (vs' & E & I).
    { intros j Hj. rewrite in_app_iff. intros [H|[H|[]]]; [apply (F j); auto; lia|]. apply mark_inj in H. lia. }
    exists vs'. split; [exact E|]. intros x Hx. apply I in Hx. rewrite in_app_iff in *.
    rewrite seq_S, map_app, in_app_iff. cbn. cbn in Hx. tauto.
Qed.
Lemma line_all m : forall r k vs n, k + r = m -> incl vs (map mark (seq 0 k)) ->
  2 * n = r * (2 * k + r + 3) ->
  exists vs', rounds (fc_step (types_graph (line m))) n (mkFc (map mark (seq k r)) [] vs) = inl (mkFc [] [] vs').
Proof.
  induction r as [|r IH]; intros k vs n E I N.
  - replace n with 0 by lia. eexists. reflexivity.
  - destruct (line_walk m k ltac:(lia) [] (map mark (seq (S k) r)) vs) as (vs' & W & V); [intros ? ? []|].
    replace n with (S (S k + (n - (k + 2)))) by nia. rewrite rounds_S. unfold fc_step at 1. cbn [seq map fc_stack fc_todo fc_visited].
    destruct (memb String.eqb (mark k) vs) eqn:M.
    { apply memb_string_In, I, in_map_iff in M as (j & J & Hj). apply mark_inj in J. apply in_seq in Hj. lia. }
    rewrite (rounds_add _ _ _ _ _ W). apply IH; [lia| |nia].
    intros x Hx. apply V, in_app_iff in Hx as [Hx|Hx]; [exact Hx|].
    apply I in Hx. rewrite seq_S, map_app, in_app_iff. now left.
Qed.
Lemma line_running m n : 2 * n = m * (m + 3) -> still_running (types_graph (line m)) n.
Proof.
  intros N. destruct (line_all m m 0 [] n) as (vs & E); [lia|intros ? []|nia|].
  unfold still_running, fc_start. rewrite types_graph_keys', line_keys. eauto.
Qed.

Lemma mark_chars k : forall c, In c (list_ascii_of_string (mark k)) -> c = "x"%char.
Proof. induction k; cbn; [|intros c [<-|H]; auto]; intuition. Qed.
Lemma mark_legal k : legal_type (mark k).
Proof.
  split.
  - unfold identifier. destruct k.
    + exists "x"%char, "". split; [reflexivity|]. split; [cbn; tauto|intros d []].
    + exists "x"%char, (mark k). split; [reflexivity|]. split; [cbn; tauto|].
      intros d H. apply mark_chars in H. subst. cbn. tauto.
  - intros H. exfalso. destruct k; cbn in H; repeat destruct H as [H|H]; try discriminate H; contradiction.
Qed.
Lemma line_supertype m a b : supertype (line m) a b -> exists j, a = mark (S j) /\ b = mark j.
Proof.
  intros (H & _). unfold line in H. apply in_map_iff in H as ([|j] & E & _); [discriminate E|].
  injection E as <- <-. now exists j.
Qed.
Lemma line_accepted m : mk_types (Some (line m)) [TYPING] false = Ok (line m).
Proof.
  apply mk_types_Ok; [apply line_NoDup|]. split; [|split; [|split]].
  - unfold norm_types, line. rewrite map_map. apply map_ext. intros [|[|k]]; reflexivity.
  - split.
    + intros k v H. unfold line in H. apply in_map_iff in H as (j & E & _). injection E as <- _. apply mark_legal.
    + intros k p H. apply line_supertype in H as (j & _ & ->). apply mark_legal.
  - intros _. now left.
  - split.
    + intros p H. apply line_supertype in H as (j & E & _). destruct j; discriminate E.
    + assert (C : forall a b, clos_trans _ (supertype (line m)) a b -> exists i j, a = mark i /\ b = mark j /\ j < i).
      { induction 1 as [a b H|a b c H1 IH1 H2 IH2].
        - apply line_supertype in H as (j & -> & ->). exists (S j), j. auto.
        - destruct IH1 as (i & j & -> & -> & L), IH2 as (i' & j' & E & -> & L'). apply mark_inj in E. subst.
          exists i, j'. repeat split; auto; lia. }
      intros n H. apply C in H as (i & j & -> & E & L). apply mark_inj in E. lia.
Qed.
