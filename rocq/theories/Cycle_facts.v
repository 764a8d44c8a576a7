(** find_cycle: termination, soundness, completeness. *)
From Coq Require Import String List Bool Arith Lia Relations.
From Verif Require Import Py Reqs Logic Validation Spec Py_facts.
Import ListNotations.
Open Scope string_scope.
Open Scope list_scope.

(** the neighbours the code looks up, and the specification's edges *)
Definition gedge (g : graph) (a b : string) : Prop :=
  exists ns, dict_get String.eqb a g = Some (Some ns) /\ In b ns.
Definition gon_cycle (g : graph) (n : string) : Prop := clos_trans _ (gedge g) n n.
Definition gacyclic (g : graph) : Prop := forall n, ~ gon_cycle g n.
Fixpoint gwalk (g : graph) (p : list string) : Prop :=
  match p with
  | a :: ((b :: _) as q) => gedge g a b /\ gwalk g q
  | _ => True
  end.

Lemma walk_snoc g p a : gwalk g p -> (forall l, last (map Some p) None = Some l -> gedge g l a) -> gwalk g (p ++ [a]).
Proof.
  induction p as [|x p IH]; [simpl; auto|]. intros W L.
  destruct p as [|y p].
  - simpl. split; auto.
  - destruct W as [E W]. split; [exact E|]. apply IH; [exact W|]. intros l Hl. apply L. exact Hl.
Qed.
Lemma walk_app_r g p q : gwalk g (p ++ q) -> gwalk g q.
Proof. induction p as [|x p IH]; simpl; auto. intros. apply IH. destruct (p ++ q); auto. destruct H; auto. Qed.
Lemma last_snoc {A} (l : list A) x d : last (l ++ [x]) d = x.
Proof. induction l as [|a l IH]; simpl; auto. destruct (l ++ [x]) eqn:E; auto. destruct l; discriminate. Qed.
Lemma walk_reach g a q : gwalk g (a :: q) -> forall l, last (map Some (a :: q)) None = Some l ->
  a = l \/ clos_trans _ (gedge g) a l.
Proof.
  revert a. induction q as [|b q IH]; intros a W l L.
  - simpl in L. inversion L. auto.
  - destruct W as [E W]. right. destruct (IH b W l L) as [->|T].
    + now apply t_step.
    + eapply t_trans; [apply t_step|]; eauto.
Qed.

(** ** invariant of the stack *)
Section Inv.
  Variable g : graph.
  Definition entry_ok (x : string * list string) : Prop :=
    let (n, p) := x in
    In n (fc_nodes g) /\ (forall a, In a p -> In a (fc_nodes g)) /\ NoDup p /\ gwalk g p /\
    (forall l, last (map Some p) None = Some l -> gedge g l n).
  Definition st_ok (s : fc_state) : Prop :=
    Forall entry_ok (fc_stack s) /\ (forall n, In n (fc_todo s) -> In n (map fst g)).

  Lemma key_node n : In n (map fst g) -> In n (fc_nodes g).
  Proof.
    unfold fc_nodes. rewrite in_map_iff. intros ((k & v) & <- & H). apply in_flat_map.
    exists (k, v). split; auto. simpl; auto.
  Qed.
  Lemma edge_node a b : gedge g a b -> In b (fc_nodes g) /\ In a (map fst g).
  Proof.
    intros (ns & G & Hb). apply dict_get_In in G as (k & Hk & E). apply String.eqb_eq in E. subst.
    split.
    - unfold fc_nodes. apply in_flat_map. exists (k, Some ns). split; auto. simpl; auto.
    - apply in_map_iff. exists (k, Some ns). auto.
  Qed.

  Definition pushed (current : string) (path : list string) : list (string * list string) :=
    match dict_get String.eqb current g with
    | Some (Some ns) => rev (map (fun n => (n, path ++ [current])) ns)
    | _ => []
    end.
  Lemma pushed_In current path x : In x (pushed current path) <->
    exists n, gedge g current n /\ x = (n, path ++ [current]).
  Proof.
    unfold pushed, gedge. destruct (dict_get String.eqb current g) as [[ns|]|].
    - rewrite <- in_rev, in_map_iff. split.
      + intros (n & <- & Hn). exists n. split; auto. exists ns. auto.
      + intros (n & (ns' & H & Hn) & ->). inversion H; subst. eauto.
    - split; [destruct 1|]. intros (n & (ns' & H & _) & _). discriminate.
    - split; [destruct 1|]. intros (n & (ns' & H & _) & _). discriminate.
  Qed.
  Lemma map_last_snoc (p : list string) x l : last (map Some (p ++ [x])) None = Some l -> l = x.
  Proof. rewrite map_app. simpl. rewrite last_snoc. now intros [= <-]. Qed.

  Lemma step_ok s s' : st_ok s -> fc_step g s = inl s' -> st_ok s'.
  Proof.
    intros [F T]. unfold fc_step. destruct (fc_stack s) as [|(current, path) st] eqn:Stk.
    - destruct (fc_todo s) as [|n ns] eqn:TD; [discriminate|].
      destruct (memb String.eqb n (fc_visited s)); intros [= <-]; split; simpl; auto.
      + intros. apply T. rewrite ?TD. simpl; auto.
      + constructor; auto. repeat split; simpl; try tauto; try constructor.
        * apply key_node, T. rewrite ?TD. simpl; auto.
        * discriminate.
      + intros. apply T. rewrite ?TD. simpl; auto.
    - destruct (memb String.eqb current path) eqn:M; [discriminate|].
      intros [= <-]. split; simpl; auto. fold (pushed current path).
      try rewrite Stk in F; inversion F as [|? ? E0 F']; subst; destruct E0 as (E1 & E2 & E3 & E4 & E5).
      apply Forall_app. split; auto. apply Forall_forall. intros x Hx.
      apply pushed_In in Hx as (n & En & ->). apply memb_string_not_In in M.
      split; [apply edge_node in En; tauto|]. split.
      { intros a Ha. apply in_app_iff in Ha as [Ha|[<-|[]]]; auto. }
      split; [|split].
      + idtac.
        apply (Permutation.Permutation_NoDup (l := current :: path)).
        * apply Permutation.Permutation_cons_append.
        * constructor; auto.
      + apply walk_snoc; auto.
      + intros l Hl. apply map_last_snoc in Hl. now subst.
  Qed.

  (** ** termination *)
  Notation N := (length (dedup String.eqb (fc_nodes g))).
  Notation D := (fc_degree g).
  Definition weight (x : string * list string) : nat := (D + 2) ^ (N + 1 - length (snd x)).
  Definition stack_weight (l : list (string * list string)) : nat :=
    fold_right (fun x n => weight x + n) 0 l.
  Definition mu (s : fc_state) : nat :=
    stack_weight (fc_stack s) + length (fc_todo s) * ((D + 2) ^ (N + 1) + 1).

  Lemma pow_pos' k : 1 <= (D + 2) ^ k.
  Proof. pose proof (Nat.pow_nonzero (D + 2) k). lia. Qed.

  Lemma nodup_bound p : NoDup p -> (forall a, In a p -> In a (fc_nodes g)) -> length p <= N.
  Proof.
    intros ND H. apply NoDup_incl_length; auto. intros a Ha. apply dedup_string_In. auto.
  Qed.
  Lemma degree_bound n ns : dict_get String.eqb n g = Some (Some ns) -> length ns <= D.
  Proof.
    intros G. apply dict_get_In in G as (k & Hk & _). unfold fc_degree.
    clear -Hk. induction g as [|kv g' IH]; [destruct Hk|]. simpl. destruct Hk as [->|Hk].
    - simpl. lia.
    - specialize (IH Hk). lia.
  Qed.
  Lemma stack_weight_app l m : stack_weight (l ++ m) = stack_weight l + stack_weight m.
  Proof. unfold stack_weight. induction l; simpl; auto. rewrite IHl. lia. Qed.
  Lemma stack_weight_const l w : Forall (fun x => weight x = w) l -> stack_weight l = length l * w.
  Proof. induction 1 as [|x l Hx _ IH]; [reflexivity|]. change (weight x + stack_weight l = w + length l * w). lia. Qed.

  Lemma step_mu s s' : st_ok s -> fc_step g s = inl s' -> st_ok s' /\ mu s' < mu s.
  Proof.
    intros OK St. split; [eapply step_ok; eauto|]. destruct OK as [F T].
    unfold fc_step in St. unfold mu. destruct (fc_stack s) as [|(current, path) st] eqn:Stk.
    - destruct (fc_todo s) as [|n ns] eqn:TD; [discriminate|].
      pose proof (pow_pos' (N + 1)).
      destruct (memb String.eqb n (fc_visited s)); inversion St; subst; simpl.
      + lia.
      + unfold weight. simpl. rewrite Nat.sub_0_r. lia.
    - destruct (memb String.eqb current path) eqn:M; [discriminate|].
      inversion St; subst; simpl. fold (pushed current path).
      rewrite stack_weight_app.
      change (stack_weight ((current, path) :: st)) with (weight (current, path) + stack_weight st).
      assert (LP : length path + 1 <= N).
      { try rewrite Stk in F; inversion F as [|? ? E0 F']; subst; destruct E0 as (E1 & E2 & E3 & E4 & E5).
        apply memb_string_not_In in M.
        assert (length (current :: path) <= N); [|simpl in *; lia].
        apply nodup_bound; [constructor; auto|]. intros a [<-|Ha]; auto. }
      assert (W : stack_weight (pushed current path) <= D * (D + 2) ^ (N - length path)).
      { rewrite (stack_weight_const _ ((D + 2) ^ (N - length path))).
        - apply Nat.mul_le_mono_r. unfold pushed.
          destruct (dict_get String.eqb current g) as [[ns|]|] eqn:G; simpl; try lia.
          rewrite rev_length, map_length. eapply degree_bound; eauto.
        - apply Forall_forall. intros x Hx. apply pushed_In in Hx as (n & _ & ->).
          unfold weight. simpl. f_equal. rewrite app_length. simpl. lia. }
      unfold weight. simpl snd.
      replace (N + 1 - length path) with (S (N - length path)) by lia.
      rewrite Nat.pow_succ_r'. pose proof (pow_pos' (N - length path)). nia.
  Qed.

  Lemma log2_bound n : 0 < n -> n < 2 ^ S (Nat.log2 n).
  Proof. intros. apply Nat.log2_spec in H. tauto. Qed.

  Definition init_state : fc_state := mkFc (map fst g) [] [].
  Lemma init_ok : st_ok init_state.
  Proof. split; simpl; auto. Qed.
  Lemma init_mu : mu init_state < 2 ^ fc_bound g.
  Proof.
    unfold mu, init_state, fc_bound. cbn [fc_stack fc_todo stack_weight fold_right].
    rewrite map_length, (Nat.pow_add_r 2), (Nat.mul_comm (N + 3)), Nat.pow_mul_r.
    pose proof (log2_bound (D + 2) ltac:(lia)) as H1.
    pose proof (log2_bound (length g + 2) ltac:(lia)) as H2.
    remember (2 ^ S (Nat.log2 (D + 2))) as a. remember (2 ^ S (Nat.log2 (length g + 2))) as b.
    assert (H3 : (D + 2) ^ (N + 3) <= a ^ (N + 3)) by (apply Nat.pow_le_mono_l; lia).
    assert (H4 : (D + 2) ^ (N + 1) + 1 <= (D + 2) ^ (N + 3)).
    { replace (N + 3) with (S (S (N + 1))) by lia. rewrite !Nat.pow_succ_r'.
      pose proof (pow_pos' (N + 1)). nia. }
    clear Heqa Heqb. pose proof (pow_pos' (N + 1)). nia.
  Qed.

  Lemma find_cycle_done : exists r, find_cycle_run (fc_bound g) g = Some r.
  Proof.
    unfold find_cycle_run. rewrite loop_steps.
    destruct (steps_measure (fc_step g) st_ok mu step_mu (2 ^ fc_bound g) init_state init_ok init_mu) as (r & E).
    unfold init_state in E. rewrite E. eauto.
  Qed.
  Lemma find_cycle_run_mono n m r : n <= m -> find_cycle_run n g = Some r -> find_cycle_run m g = Some r.
  Proof.
    unfold find_cycle_run. rewrite !loop_steps. intros L H.
    destruct (steps (fc_step g) (2 ^ n) _) eqn:E; [discriminate|]. inversion H; subst.
    rewrite (steps_mono _ (2 ^ n) (2 ^ m) _ r); auto. apply Nat.pow_le_mono_r; lia.
  Qed.
  Lemma find_cycle_run_eq n r : find_cycle_run n g = Some r -> r = find_cycle g.
  Proof.
    intros H. unfold find_cycle. destruct find_cycle_done as (r' & E). rewrite E.
    destruct (Nat.le_ge_cases n (fc_bound g)) as [L|L].
    - apply (find_cycle_run_mono _ _ _ L) in H. congruence.
    - apply (find_cycle_run_mono _ _ _ L) in E. congruence.
  Qed.

  (** ** soundness *)
  Definition witnesses (p : list string) : Prop :=
    NoDup p /\ gwalk g p /\ exists l n, last (map Some p) None = Some l /\ gedge g l n /\ In n p.
  Lemma step_result s r : st_ok s -> fc_step g s = inr r ->
    match r with Some p => witnesses p | None => fc_stack s = [] /\ fc_todo s = [] end.
  Proof.
    intros [F T]. unfold fc_step. destruct (fc_stack s) as [|(current, path) st] eqn:Stk.
    - destruct (fc_todo s) as [|n ns] eqn:TD; [intros [= <-]; auto|].
      destruct (memb String.eqb n (fc_visited s)); discriminate.
    - destruct (memb String.eqb current path) eqn:M; [|discriminate]. intros [= <-].
      try rewrite Stk in F; inversion F as [|? ? E0 F']; subst; destruct E0 as (E1 & E2 & E3 & E4 & E5).
      apply memb_string_In in M. repeat split; auto.
      assert (exists l, last (map Some path) None = Some l) as (l & L).
      { destruct (exists_last (l := path)) as (p' & l & ->); [intros ->; destruct M|].
        exists l. rewrite map_app. simpl. now rewrite last_snoc. }
      exists l, current. auto.
  Qed.
  Lemma find_cycle_sound p : find_cycle g = Some p -> witnesses p.
  Proof.
    unfold find_cycle, find_cycle_run. rewrite loop_steps.
    destruct (steps (fc_step g) _ _) as [|r] eqn:E; [discriminate|]. intros ->.
    pose proof (steps_inv (fc_step g) st_ok
      (fun r => match r with Some p => witnesses p | None => True end)) as K.
    assert (H2 : forall s r, st_ok s -> fc_step g s = inr r ->
        match r with Some p => witnesses p | None => True end).
    { intros s [r|] OK St; auto. now apply (step_result s (Some r)). }
    exact (K step_ok H2 _ _ (Some p) init_ok E).
  Qed.
  Lemma witnesses_cycle p : witnesses p -> exists p1 n p2, p = p1 ++ n :: p2 /\ gon_cycle g n.
  Proof.
    intros (ND & W & l & n & L & E & Hn). apply in_split in Hn as (p1 & p2 & ->).
    exists p1, n, p2. split; auto. apply walk_app_r in W.
    assert (L' : last (map Some (n :: p2)) None = Some l).
    { rewrite <- L. clear. induction p1 as [|x p1 IH]; [reflexivity|].
      rewrite IH. simpl. destruct (map Some (p1 ++ n :: p2)) eqn:X; auto.
      destruct p1; discriminate. }
    destruct (walk_reach g n p2 W l L') as [->|T].
    - now apply t_step.
    - eapply t_trans; [exact T|]. now apply t_step.
  Qed.

  (** ** completeness *)
  Lemma trans_first a b : clos_trans _ (gedge g) a b -> exists m, gedge g a m /\ clos_refl_trans _ (gedge g) m b.
  Proof.
    intros H. apply clos_trans_t1n in H. destruct H as [b E|m b E R].
    - exists b. split; auto. apply rt_refl.
    - exists m. split; auto. apply clos_t1n_trans in R. clear E. induction R.
      + now apply rt_step.
      + eapply rt_trans; eauto.
  Qed.
  Lemma refl_trans_first a b : clos_refl_trans _ (gedge g) a b ->
    a = b \/ exists m, gedge g a m /\ clos_refl_trans _ (gedge g) m b.
  Proof.
    intros H. apply clos_rt_rt1n in H. destruct H as [|m b E R]; auto.
    right. exists m. split; auto. now apply clos_rt1n_rt.
  Qed.
  Section Complete.
    Variable c : string.
    Hypothesis Hc : gon_cycle g c.
    Definition reach (n : string) : Prop := clos_refl_trans _ (gedge g) n c.
    Lemma reach_step n : reach n -> exists m, gedge g n m /\ reach m.
    Proof.
      intros R. apply refl_trans_first in R as [->|R]; auto. now apply trans_first.
    Qed.
    Definition seek (s : fc_state) : Prop :=
      (exists x, In x (fc_stack s) /\ reach (fst x)) \/
      (~ In c (fc_visited s) /\ In c (fc_todo s)).
    Lemma step_seek s s' : seek s -> fc_step g s = inl s' -> seek s'.
    Proof.
      intros I St. unfold fc_step in St. destruct (fc_stack s) as [|(current, path) st] eqn:Stk.
      - destruct (fc_todo s) as [|n ns] eqn:TD; [discriminate|].
        destruct I as [(x & Hx & _)|[I1 I2]]; [rewrite Stk in Hx; destruct Hx|].
        rewrite TD in I2.
        destruct (memb String.eqb n (fc_visited s)) eqn:M; inversion St; subst.
        + right. simpl. split; auto. destruct I2 as [->|]; auto. apply memb_string_In in M. contradiction.
        + destruct I2 as [->|I2].
          * left. simpl. exists (c, []). split; auto. apply rt_refl.
          * right. simpl. auto.
      - destruct (memb String.eqb current path) eqn:M; [discriminate|]. inversion St; subst.
        fold (pushed current path).
        assert (Ch : reach current -> seek (mkFc (fc_todo s) (pushed current path ++ st) (current :: fc_visited s))).
        { intros R. destruct (reach_step _ R) as (m & E & Rm). left. simpl.
          exists (m, path ++ [current]). split; auto. apply in_app_iff. left.
          apply pushed_In. eauto. }
        destruct I as [(x & Hx & R)|[I1 I2]].
        + rewrite Stk in Hx. destruct Hx as [<-|Hx]; [now apply Ch|].
          left. simpl. exists x. split; auto. apply in_app_iff. auto.
        + destruct (string_dec current c) as [->|Ne].
          * apply Ch. apply rt_refl.
          * right. simpl. split; auto. intros [|]; auto.
    Qed.
    Lemma init_seek : seek init_state.
    Proof.
      right. simpl. split; auto. unfold gon_cycle in Hc.
      apply trans_first in Hc as (m & E & _). now apply edge_node in E.
    Qed.
    Lemma find_cycle_complete : find_cycle g <> None.
    Proof.
      intros H. destruct find_cycle_done as (r & E). unfold find_cycle in H. rewrite E in H. subst r.
      unfold find_cycle_run in E. rewrite loop_steps in E.
      destruct (steps (fc_step g) _ _) as [|r] eqn:E'; [discriminate|]. inversion E; subst.
      assert (H1 : forall s s', (st_ok s /\ seek s) -> fc_step g s = inl s' -> st_ok s' /\ seek s').
      { intros s s' [A B] St. split; [eapply step_ok|eapply step_seek]; eauto. }
      assert (H2 : forall s r, (st_ok s /\ seek s) -> fc_step g s = inr r -> r <> None).
      { intros s r [A B] St ->. pose proof (step_result _ _ A St) as [X Y]. simpl in X, Y.
        destruct B as [(x & Hx & _)|[_ B]]; [rewrite X in Hx; destruct Hx|rewrite Y in B; destruct B]. }
      pose proof (steps_inv (fc_step g) (fun s => st_ok s /\ seek s) (fun r => r <> None) H1 H2
        _ _ None (conj init_ok init_seek) E') as C. now apply C.
    Qed.
  End Complete.

  Lemma find_cycle_None : find_cycle g = None <-> gacyclic g.
  Proof.
    split.
    - intros H n Hn. apply (find_cycle_complete n Hn). auto.
    - intros A. destruct (find_cycle g) as [p|] eqn:E; auto.
      apply find_cycle_sound, witnesses_cycle in E as (p1 & n & p2 & _ & C). exfalso. eapply A; eauto.
  Qed.
End Inv.

Lemma gedge_edge g : NoDup (map fst g) -> forall a b, gedge g a b <-> edge g a b.
Proof.
  intros ND a b. unfold gedge, edge. split; intros (ns & H & Hb); exists ns; split; auto.
  - apply dict_get_In in H as (k & Hk & E). apply String.eqb_eq in E. now subst.
  - revert ND H. clear. induction g as [|(k, v) g IH]; intros ND; [intros []|]. inversion ND; subst.
    simpl. intros [[= -> ->]|H].
    + now rewrite String.eqb_refl.
    + destruct (String.eqb_spec a k) as [->|]; auto.
      exfalso. apply H1. apply in_map_iff. exists (k, Some ns). auto.
Qed.
Lemma clos_trans_ext {A} (R S : A -> A -> Prop) : (forall a b, R a b <-> S a b) ->
  forall a b, clos_trans _ R a b <-> clos_trans _ S a b.
Proof.
  intros E a b. split; induction 1; try (apply t_step; now apply E); eapply t_trans; eauto.
Qed.
Lemma gacyclic_acyclic g : NoDup (map fst g) -> (gacyclic g <-> acyclic g).
Proof.
  intros ND. unfold gacyclic, acyclic, gon_cycle, on_cycle.
  split; intros H n; specialize (H n); rewrite (clos_trans_ext _ _ (gedge_edge g ND)) in *; auto.
Qed.
Lemma gwalk_walk g : NoDup (map fst g) -> forall p, gwalk g p <-> walk g p.
Proof.
  intros ND. induction p as [|a p IH]; simpl; [tauto|]. destruct p as [|b q]; [tauto|].
  now rewrite (gedge_edge g ND), IH.
Qed.
