(** Lemmas about Py.v *)
From Coq Require Import String Ascii List Bool NArith ZArith Lia Permutation Sorted Arith OrderedTypeEx.
From Verif Require Import Py.
Import ListNotations.
Open Scope string_scope.
Open Scope list_scope.

(** ** boolean equivalences *)
Record is_equiv {A} (eqb : A -> A -> bool) : Prop := {
  eqv_refl : forall x, eqb x x = true;
  eqv_sym : forall x y, eqb x y = eqb y x;
  eqv_trans : forall x y z, eqb x y = true -> eqb y z = true -> eqb x z = true
}.

Lemma equiv_cong {A} (eqb : A -> A -> bool) (E : is_equiv eqb) x y :
  eqb x y = true -> forall z, eqb x z = eqb y z.
Proof.
  intros H z. destruct (eqb x z) eqn:E1, (eqb y z) eqn:E2; auto.
  - rewrite (eqv_sym _ E) in H. rewrite <- E2. symmetry. eapply (eqv_trans _ E); eauto.
  - rewrite <- E1. eapply (eqv_trans _ E); eauto.
Qed.
Lemma equiv_cong_r {A} (eqb : A -> A -> bool) (E : is_equiv eqb) x y :
  eqb x y = true -> forall z, eqb z x = eqb z y.
Proof. intros H z. rewrite (eqv_sym _ E z x), (eqv_sym _ E z y). now apply equiv_cong. Qed.

Lemma string_eqb_equiv : is_equiv String.eqb.
Proof.
  constructor; intros.
  - apply String.eqb_refl.
  - apply String.eqb_sym.
  - apply String.eqb_eq in H, H0. subst. apply String.eqb_refl.
Qed.
#[export] Hint Resolve string_eqb_equiv : eqv.

(** ** memb, subset, set_eqb *)
Section SetFacts.
  Context {A : Type} (eqb : A -> A -> bool) (E : is_equiv eqb).

  Lemma memb_In x l : memb eqb x l = true <-> exists y, In y l /\ eqb x y = true.
  Proof. unfold memb. apply existsb_exists. Qed.

  Lemma memb_false x l : memb eqb x l = false <-> forall y, In y l -> eqb x y = false.
  Proof.
    split.
    - intros H y Hy. destruct (eqb x y) eqn:Q; auto.
      assert (memb eqb x l = true) by (apply memb_In; eauto). congruence.
    - intros H. destruct (memb eqb x l) eqn:Q; auto.
      apply memb_In in Q as (y & Hy & He). rewrite (H y Hy) in He. discriminate.
  Qed.

  Lemma In_memb x l : In x l -> memb eqb x l = true.
  Proof. intros. apply memb_In. exists x. split; auto. apply (eqv_refl _ E). Qed.

  Lemma memb_cong x y l : eqb x y = true -> memb eqb x l = memb eqb y l.
  Proof.
    intros H. unfold memb. induction l; simpl; auto.
    rewrite (equiv_cong _ E x y H), IHl. reflexivity.
  Qed.

  Lemma memb_app x l m : memb eqb x (l ++ m) = memb eqb x l || memb eqb x m.
  Proof. unfold memb. apply existsb_app. Qed.

  Lemma subset_spec l m :
    subset eqb l m = true <-> forall x, memb eqb x l = true -> memb eqb x m = true.
  Proof.
    unfold subset. rewrite forallb_forall. split.
    - intros H x Hx. apply memb_In in Hx as (y & Hy & He).
      rewrite (memb_cong _ _ m He). auto.
    - intros H x Hx. apply H. now apply In_memb.
  Qed.

  Lemma subset_In (l m : list A) : subset eqb l m = true <-> forall x, In x l -> memb eqb x m = true.
  Proof. unfold subset. now rewrite forallb_forall. Qed.

  Lemma set_eqb_spec l m :
    set_eqb eqb l m = true <-> forall x, memb eqb x l = memb eqb x m.
  Proof.
    unfold set_eqb. rewrite andb_true_iff, !subset_spec. split.
    - intros [H1 H2] x. specialize (H1 x). specialize (H2 x).
      destruct (memb eqb x l), (memb eqb x m); intuition congruence.
    - intros H. split; intros x Hx; congruence.
  Qed.

  Lemma set_eqb_equiv : is_equiv (set_eqb eqb).
  Proof.
    constructor.
    - intros. now apply set_eqb_spec.
    - intros x y. unfold set_eqb. apply andb_comm.
    - intros x y z H1 H2. rewrite set_eqb_spec in *. intros. now rewrite H1.
  Qed.

  Lemma dedup_from_spec seen l x :
    memb eqb x (dedup_from eqb seen l) || memb eqb x seen
    = memb eqb x l || memb eqb x seen.
  Proof.
    revert seen. induction l as [|a l IH]; intros; simpl; auto.
    destruct (memb eqb a seen) eqn:M.
    - rewrite IH. destruct (eqb x a) eqn:Q; simpl; auto.
      rewrite (memb_cong _ _ seen Q), M, orb_true_r. reflexivity.
    - simpl. specialize (IH (a :: seen)). simpl in IH.
      destruct (eqb x a) eqn:Q; simpl in *; auto.
  Qed.

  Lemma memb_dedup l x : memb eqb x (dedup eqb l) = memb eqb x l.
  Proof.
    pose proof (dedup_from_spec [] l x). simpl in H. now rewrite !orb_false_r in H.
  Qed.

  Lemma dedup_set_eqb l : set_eqb eqb (dedup eqb l) l = true.
  Proof. apply set_eqb_spec. intros. apply memb_dedup. Qed.

  Lemma dedup_from_In seen l x : In x (dedup_from eqb seen l) -> In x l.
  Proof.
    revert seen. induction l; simpl; intros; auto.
    destruct (memb eqb a seen); eauto. destruct H; eauto.
  Qed.
  Lemma dedup_In l x : In x (dedup eqb l) -> In x l.
  Proof. apply dedup_from_In. Qed.

  (** no two equal elements *)
  Inductive NoDupE : list A -> Prop :=
  | NDE_nil : NoDupE []
  | NDE_cons x l : memb eqb x l = false -> NoDupE l -> NoDupE (x :: l).

  Lemma dedup_from_seen seen l x :
    memb eqb x seen = true -> memb eqb x (dedup_from eqb seen l) = false.
  Proof.
    revert seen. induction l as [|a l IH]; simpl; intros; auto.
    destruct (memb eqb a seen) eqn:M; auto.
    simpl. rewrite IH by (simpl; now rewrite H, orb_true_r).
    destruct (eqb x a) eqn:Q; auto.
    rewrite (memb_cong _ _ seen Q) in H. congruence.
  Qed.
  Lemma dedup_from_NoDupE seen l : NoDupE (dedup_from eqb seen l).
  Proof.
    revert seen. induction l as [|a l IH]; simpl; intros; [constructor|].
    destruct (memb eqb a seen) eqn:M; auto. constructor; auto.
    apply dedup_from_seen. simpl. now rewrite (eqv_refl _ E).
  Qed.
  Lemma dedup_NoDupE l : NoDupE (dedup eqb l).
  Proof. apply dedup_from_NoDupE. Qed.

  Lemma dedup_from_NoDup_id seen l :
    NoDupE l -> (forall x, In x l -> memb eqb x seen = false) -> dedup_from eqb seen l = l.
  Proof.
    intros H. revert seen. induction H; simpl; intros seen Hs; auto.
    rewrite (Hs x) by auto. f_equal. apply IHNoDupE. intros y Hy. simpl.
    rewrite (Hs y) by auto. rewrite memb_false in H.
    rewrite (eqv_sym _ E). now rewrite (H y Hy).
  Qed.
  Lemma dedup_id l : NoDupE l -> dedup eqb l = l.
  Proof. intros. apply dedup_from_NoDup_id; auto. Qed.
  Lemma dedup_idem l : dedup eqb (dedup eqb l) = dedup eqb l.
  Proof. apply dedup_id, dedup_NoDupE. Qed.

  Lemma NoDupE_cons_inv x l : NoDupE (x :: l) -> memb eqb x l = false /\ NoDupE l.
  Proof. inversion 1; auto. Qed.

  Lemma NoDupE_app_inv l m : NoDupE (l ++ m) ->
    NoDupE l /\ NoDupE m /\ forall x, In x l -> memb eqb x m = false.
  Proof.
    induction l; simpl; intros H.
    - repeat split; auto. constructor. tauto.
    - apply NoDupE_cons_inv in H as [H1 H2]. destruct (IHl H2) as (I1 & I2 & I3).
      rewrite memb_app in H1. apply orb_false_iff in H1 as [H1 H1'].
      repeat split; auto. constructor; auto.
      intros x [<-|]; auto.
  Qed.

  Lemma NoDupE_app l m : NoDupE l -> NoDupE m ->
    (forall x, In x l -> memb eqb x m = false) -> NoDupE (l ++ m).
  Proof.
    induction 1; simpl; intros; auto. constructor; auto.
    rewrite memb_app, H, H2 by auto. reflexivity.
  Qed.

  (** two duplicate-free lists with the same members are permutations up to [eqb] *)
  Lemma NoDupE_set_eqb_perm l m :
    NoDupE l -> NoDupE m -> set_eqb eqb l m = true ->
    exists m', Permutation m m' /\ Forall2 (fun x y => eqb x y = true) l m'.
  Proof.
    intros Hl. revert m. induction Hl as [|x l Hx Hl IH]; intros m Hm He.
    - destruct m as [|y m]; [exists []; auto|].
      rewrite set_eqb_spec in He. specialize (He y). simpl in He.
      rewrite (eqv_refl _ E) in He. discriminate.
    - rewrite set_eqb_spec in He.
      assert (Mx : memb eqb x m = true).
      { rewrite <- He. simpl. now rewrite (eqv_refl _ E). }
      apply memb_In in Mx as (y & Hy & Exy).
      apply in_split in Hy as (m1 & m2 & ->).
      apply NoDupE_app_inv in Hm as (N1 & N2 & N3).
      apply NoDupE_cons_inv in N2 as [N2 N2'].
      assert (ND : NoDupE (m1 ++ m2)).
      { apply NoDupE_app; auto. intros z Hz. specialize (N3 z Hz). simpl in N3.
        now apply orb_false_iff in N3. }
      destruct (IH (m1 ++ m2) ND) as (m' & P & F).
      { apply set_eqb_spec. intros z.
        specialize (He z). simpl in He. rewrite memb_app in He. simpl in He.
        rewrite memb_app.
        destruct (eqb z x) eqn:Zx.
        - rewrite (memb_cong _ _ l Zx), Hx.
          assert (Zy : eqb z y = true) by (eapply (eqv_trans _ E); eauto).
          rewrite (memb_cong _ _ m2 Zy), N2, orb_false_r.
          symmetry. rewrite memb_false. intros w Hw.
          specialize (N3 w Hw). simpl in N3. apply orb_false_iff in N3 as [N3 _].
          rewrite (equiv_cong _ E _ _ Zy). rewrite (eqv_sym _ E). exact N3.
        - simpl in He. rewrite He.
          rewrite (equiv_cong_r _ E _ _ Exy) in Zx. rewrite Zx. reflexivity. }
      exists (y :: m'). split.
      + rewrite <- Permutation_middle. constructor. exact P.
      + constructor; auto.
  Qed.

  Lemma memb_perm x l m : Permutation l m -> memb eqb x l = memb eqb x m.
  Proof.
    unfold memb. induction 1; simpl; auto.
    - now rewrite IHPermutation.
    - now rewrite !orb_assoc, (orb_comm (eqb x y)).
    - congruence.
  Qed.
  Lemma perm_set_eqb l m : Permutation l m -> set_eqb eqb l m = true.
  Proof. intros. apply set_eqb_spec. intros. now apply memb_perm. Qed.
  Lemma NoDupE_perm l m : Permutation l m -> NoDupE l -> NoDupE m.
  Proof.
    induction 1; intros N; auto.
    - apply NoDupE_cons_inv in N as [N1 N2]. constructor; auto.
      now rewrite <- (memb_perm x _ _ H).
    - apply NoDupE_cons_inv in N as [N1 N2]. apply NoDupE_cons_inv in N2 as [N2 N3].
      simpl in N1. apply orb_false_iff in N1 as [N1 N1'].
      constructor; [simpl; rewrite (eqv_sym _ E), N1, N2; reflexivity|constructor; auto].
  Qed.

  Lemma union_spec x l m : memb eqb x (union eqb l m) = memb eqb x l || memb eqb x m.
  Proof. unfold union. now rewrite memb_dedup, memb_app. Qed.
End SetFacts.

Lemma NoDupE_string l : NoDupE String.eqb l <-> NoDup l.
Proof.
  split; induction 1.
  - constructor.
  - constructor; auto. intros Hin. apply (In_memb _ string_eqb_equiv) in Hin. congruence.
  - constructor.
  - constructor; auto. rewrite memb_false. intros y Hy. apply String.eqb_neq. intros ->. contradiction.
Qed.

Lemma memb_string_In x l : memb String.eqb x l = true <-> In x l.
Proof.
  rewrite memb_In. split.
  - intros (y & Hy & He). apply String.eqb_eq in He. now subst.
  - intros. exists x. split; auto. apply String.eqb_refl.
Qed.
Lemma memb_string_not_In x l : memb String.eqb x l = false <-> ~ In x l.
Proof.
  split.
  - intros H Hi. apply memb_string_In in Hi. congruence.
  - intros H. destruct (memb String.eqb x l) eqn:Q; auto. apply memb_string_In in Q. tauto.
Qed.
Lemma subset_string l m : subset String.eqb l m = true <-> incl l m.
Proof.
  rewrite subset_In. unfold incl. split; intros H x Hx; specialize (H x Hx).
  - now apply memb_string_In.
  - now apply memb_string_In.
Qed.
Lemma set_eqb_string l m : set_eqb String.eqb l m = true <-> forall x, In x l <-> In x m.
Proof.
  rewrite set_eqb_spec by apply string_eqb_equiv. split; intros H x.
  - rewrite <- !memb_string_In, H. tauto.
  - specialize (H x). destruct (memb String.eqb x l) eqn:A, (memb String.eqb x m) eqn:B; auto.
    + apply memb_string_In in A. apply H, memb_string_In in A. congruence.
    + apply memb_string_In in B. apply H, memb_string_In in B. congruence.
Qed.
Lemma dedup_string_In x l : In x (dedup String.eqb l) <-> In x l.
Proof. rewrite <- !memb_string_In. now rewrite memb_dedup by apply string_eqb_equiv. Qed.
Lemma dedup_string_NoDup l : NoDup (dedup String.eqb l).
Proof. apply NoDupE_string, dedup_NoDupE, string_eqb_equiv. Qed.
Lemma dedup_string_id l : NoDup l -> dedup String.eqb l = l.
Proof. intros. apply dedup_id; [apply string_eqb_equiv|now apply NoDupE_string]. Qed.

(** ** list_eqb, option_eqb *)
Lemma list_eqb_Forall2 {A} (eqb : A -> A -> bool) l m :
  list_eqb eqb l m = true <-> Forall2 (fun x y => eqb x y = true) l m.
Proof.
  revert m. induction l; destruct m; simpl; split; intros H; try discriminate; auto;
    try (inversion H; fail).
  - apply andb_true_iff in H as [H1 H2]. constructor; auto. now apply IHl.
  - inversion H; subst. apply andb_true_iff. split; auto. now apply IHl.
Qed.

Lemma list_eqb_equiv_on {A} (eqb : A -> A -> bool) (P : A -> Prop) :
  (forall x, P x -> eqb x x = true) ->
  forall l, Forall P l -> list_eqb eqb l l = true.
Proof. intros H l. induction 1; simpl; auto. rewrite H, IHForall; auto. Qed.

Lemma list_eqb_equiv {A} (eqb : A -> A -> bool) : is_equiv eqb -> is_equiv (list_eqb eqb).
Proof.
  intros E. constructor.
  - induction x; simpl; auto. now rewrite (eqv_refl _ E), IHx.
  - induction x; destruct y; simpl; auto. now rewrite (eqv_sym _ E), IHx.
  - induction x; destruct y, z; simpl; intros H1 H2; auto; try discriminate.
    apply andb_true_iff in H1 as [], H2 as []. apply andb_true_iff. split.
    + eapply (eqv_trans _ E); eauto.
    + eapply IHx; eauto.
Qed.
Lemma option_eqb_equiv {A} (eqb : A -> A -> bool) : is_equiv eqb -> is_equiv (option_eqb eqb).
Proof.
  intros E. constructor.
  - intros [|]; simpl; auto. apply (eqv_refl _ E).
  - intros [|] [|]; simpl; auto. apply (eqv_sym _ E).
  - intros [x|] [y|] [z|]; simpl; auto; try discriminate. apply (eqv_trans _ E).
Qed.

Lemma list_eqb_length {A} (eqb : A -> A -> bool) l m :
  list_eqb eqb l m = true -> length l = length m.
Proof.
  revert m. induction l; destruct m; simpl; intros; auto; try discriminate.
  apply andb_true_iff in H as [_ H]. f_equal. auto.
Qed.
Lemma Forall2_length {A B} (R : A -> B -> Prop) l m : Forall2 R l m -> length l = length m.
Proof. induction 1; simpl; auto. Qed.

Lemma list_string_eqb_eq l m : list_eqb String.eqb l m = true <-> l = m.
Proof.
  revert m. induction l; destruct m; simpl; split; intros; try discriminate; auto.
  - apply andb_true_iff in H as [H1 H2]. apply String.eqb_eq in H1. apply IHl in H2. now subst.
  - inversion H; subst. rewrite String.eqb_refl. now apply IHl.
Qed.
Lemma option_string_eqb_eq a b : option_eqb String.eqb a b = true <-> a = b.
Proof.
  destruct a, b; simpl; split; intros; try discriminate; auto.
  - apply String.eqb_eq in H. now subst.
  - inversion H. apply String.eqb_refl.
Qed.

(** ** dictionaries *)
Section DictFacts.
  Context {K V : Type} (eqb : K -> K -> bool) (E : is_equiv eqb).

  Lemma dict_get_cong k k' (d : list (K * V)) :
    eqb k k' = true -> dict_get eqb k d = dict_get eqb k' d.
  Proof.
    intros H. induction d as [|[a v] d IH]; simpl; auto.
    now rewrite (equiv_cong _ E _ _ H), IH.
  Qed.

  Lemma dict_get_set k v k' (d : list (K * V)) :
    dict_get eqb k (dict_set eqb k' v d)
    = if eqb k k' then Some v else dict_get eqb k d.
  Proof.
    induction d as [|[a w] d IH]; simpl.
    - destruct (eqb k k'); auto.
    - destruct (eqb k' a) eqn:Q; simpl.
      + rewrite (equiv_cong_r _ E _ _ Q). destruct (eqb k a); auto.
      + rewrite IH. destruct (eqb k a) eqn:Q2; auto.
        destruct (eqb k k') eqn:Q3; auto.
        rewrite (eqv_sym _ E) in Q3. rewrite (eqv_trans _ E _ _ _ Q3 Q2) in Q. discriminate.
  Qed.

  Lemma dict_get_memb k (d : list (K * V)) :
    memb eqb k (map fst d) = match dict_get eqb k d with Some _ => true | None => false end.
  Proof. induction d as [|[a v] d IH]; simpl; auto. destruct (eqb k a); simpl; auto. Qed.

  Lemma dict_set_keys k v (d : list (K * V)) :
    map fst (dict_set eqb k v d)
    = if memb eqb k (map fst d) then map fst d else map fst d ++ [k].
  Proof.
    induction d as [|[a w] d IH]; simpl; auto.
    destruct (eqb k a) eqn:Q; simpl; auto. rewrite IH.
    destruct (memb eqb k (map fst d)); auto.
  Qed.

  Lemma dict_set_NoDupE k v (d : list (K * V)) :
    NoDupE eqb (map fst d) -> NoDupE eqb (map fst (dict_set eqb k v d)).
  Proof.
    intros H. rewrite dict_set_keys. destruct (memb eqb k (map fst d)) eqn:M; auto.
    apply NoDupE_app; auto.
    - constructor; [reflexivity|constructor].
    - intros x Hx. simpl. rewrite orb_false_r. rewrite memb_false in M.
      rewrite (eqv_sym _ E). now apply M.
  Qed.

  Lemma dict_of_list_fold_NoDupE l (d : list (K * V)) :
    NoDupE eqb (map fst d) ->
    NoDupE eqb (map fst (fold_left (fun d kv => dict_set eqb (fst kv) (snd kv) d) l d)).
  Proof. revert d. induction l; simpl; intros; auto. apply IHl. now apply dict_set_NoDupE. Qed.
  Lemma dict_of_list_NoDupE (l : list (K * V)) : NoDupE eqb (map fst (dict_of_list eqb l)).
  Proof. apply dict_of_list_fold_NoDupE. constructor. Qed.

  (** the last binding wins *)
  Lemma dict_get_fold k l (d : list (K * V)) :
    dict_get eqb k (fold_left (fun d kv => dict_set eqb (fst kv) (snd kv) d) l d)
    = match dict_get eqb k (rev l) with Some v => Some v | None => dict_get eqb k d end.
  Proof.
    revert d. induction l as [|[a v] l IH]; simpl; intros; auto.
    rewrite IH. rewrite dict_get_set.
    assert (G : forall l1 l2 : list (K*V), dict_get eqb k (l1 ++ l2)
              = match dict_get eqb k l1 with Some x => Some x | None => dict_get eqb k l2 end).
    { induction l1 as [|[b w] l1 IH1]; simpl; auto. intros. destruct (eqb k b); auto. }
    rewrite G. simpl. destruct (dict_get eqb k (rev l)); auto. destruct (eqb k a); auto.
  Qed.
  Lemma dict_get_of_list k (l : list (K * V)) :
    dict_get eqb k (dict_of_list eqb l) = dict_get eqb k (rev l).
  Proof. unfold dict_of_list. rewrite dict_get_fold. simpl. now destruct (dict_get eqb k (rev l)). Qed.

  Lemma dict_set_new k v (d : list (K * V)) :
    memb eqb k (map fst d) = false -> dict_set eqb k v d = d ++ [(k, v)].
  Proof.
    induction d as [|[a w] d IH]; simpl; intros H; auto.
    apply orb_false_iff in H as [H1 H2]. rewrite H1. f_equal. auto.
  Qed.

  Lemma dict_of_list_id_gen l (d : list (K * V)) :
    NoDupE eqb (map fst (d ++ l)) ->
    fold_left (fun d kv => dict_set eqb (fst kv) (snd kv) d) l d = d ++ l.
  Proof.
    revert d. induction l as [|[a v] l IH]; simpl; intros d H; [now rewrite app_nil_r|].
    rewrite dict_set_new.
    - rewrite IH; [now rewrite <- app_assoc|].
      rewrite <- app_assoc. exact H.
    - rewrite map_app in H. apply NoDupE_app_inv in H as (H1 & H2 & H3).
      simpl in H2, H3. rewrite memb_false. intros y Hy. specialize (H3 y Hy).
      apply orb_false_iff in H3 as [H3 _]. now rewrite (eqv_sym _ E).
  Qed.
  Lemma dict_of_list_id (l : list (K * V)) :
    NoDupE eqb (map fst l) -> dict_of_list eqb l = l.
  Proof. intros. unfold dict_of_list. now rewrite dict_of_list_id_gen. Qed.

  Lemma dict_get_In k v (d : list (K * V)) :
    dict_get eqb k d = Some v -> exists k', In (k', v) d /\ eqb k k' = true.
  Proof.
    induction d as [|[a w] d IH]; simpl; [discriminate|].
    destruct (eqb k a) eqn:Q.
    - intros [= ->]. eauto.
    - intros H. destruct (IH H) as (k' & Hi & He). eauto.
  Qed.
  Lemma dict_get_In_iff k v (d : list (K * V)) :
    NoDupE eqb (map fst d) -> In (k, v) d -> dict_get eqb k d = Some v.
  Proof.
    induction d as [|[a w] d IH]; simpl; [tauto|].
    intros N [H|H].
    - inversion H; subst. now rewrite (eqv_refl _ E).
    - apply NoDupE_cons_inv in N as [N1 N2].
      destruct (eqb k a) eqn:Q; auto.
      rewrite memb_false in N1. rewrite (eqv_sym _ E) in Q.
      rewrite N1 in Q; [discriminate|]. apply in_map_iff. exists (k, v). auto.
  Qed.
End DictFacts.

(** dict equality, for dictionaries without repeated keys *)
Section DictEq.
  Context {K V : Type} (eqb : K -> K -> bool) (E : is_equiv eqb)
          (veqb : V -> V -> bool) (EV : is_equiv veqb).
  Definition dict_same (d1 d2 : list (K * V)) : Prop :=
    forall k, option_eqb veqb (dict_get eqb k d1) (dict_get eqb k d2) = true.

  Lemma dict_eqb_spec d1 d2 :
    NoDupE eqb (map fst d1) -> NoDupE eqb (map fst d2) ->
    (dict_eqb eqb veqb d1 d2 = true <-> dict_same d1 d2).
  Proof.
    intros N1 N2. unfold dict_eqb. rewrite andb_true_iff, Nat.eqb_eq, forallb_forall.
    split.
    - intros [HL H] k.
      assert (S12 : forall k v, dict_get eqb k d1 = Some v ->
                 exists v', dict_get eqb k d2 = Some v' /\ veqb v v' = true).
      { intros k0 v Hg. apply dict_get_In in Hg as (k' & Hi & He).
        specialize (H _ Hi). simpl in H. rewrite (dict_get_cong _ E _ _ d2 He).
        destruct (dict_get eqb k' d2); [|discriminate]. eauto. }
      destruct (dict_get eqb k d1) eqn:G1.
      + destruct (S12 _ _ G1) as (v' & -> & ?). auto.
      + destruct (dict_get eqb k d2) eqn:G2; auto.
        (* counting argument: keys d1 included in keys d2, same length, so equal *)
        exfalso.
        assert (Sub : forall x, In x (map fst d1) -> memb eqb x (map fst d2) = true).
        { intros x Hx. rewrite dict_get_memb.
          assert (M : memb eqb x (map fst d1) = true) by now apply In_memb.
          rewrite dict_get_memb in M. destruct (dict_get eqb x d1) eqn:G; [|discriminate].
          destruct (S12 _ _ G) as (? & -> & _). auto. }
        assert (Hk : memb eqb k (map fst d1) = false) by now rewrite dict_get_memb, G1.
        assert (Hk2 : memb eqb k (map fst d2) = true) by now rewrite dict_get_memb, G2.
        assert (L : length (map fst d1) = length (map fst d2)) by now rewrite !map_length.
        clear -E N1 N2 Sub Hk Hk2 L.
        remember (map fst d1) as l1. remember (map fst d2) as l2. clear Heql1 Heql2 d1 d2.
        assert (ND : NoDupE eqb (k :: l1)) by now constructor.
        assert (Sub' : forall x, In x (k :: l1) -> memb eqb x l2 = true) by (intros ? [<-|]; auto).
        assert (Len : length l2 < length (k :: l1)) by (simpl; lia).
        clear -E ND Sub' Len. revert l2 Sub' Len.
        induction ND as [|x l Hx ND IH]; intros l2 Sub Len; simpl in *; [lia|].
        pose proof (Sub x (or_introl eq_refl)) as M. apply memb_In in M as (y & Hy & Exy).
        apply in_split in Hy as (m1 & m2 & ->).
        apply (IH (m1 ++ m2)).
        * intros z Hz. specialize (Sub z (or_intror Hz)). rewrite memb_app in *. simpl in Sub.
          destruct (eqb z y) eqn:Zy; auto.
          exfalso. rewrite memb_false in Hx. specialize (Hx z Hz).
          rewrite (equiv_cong_r _ E _ _ Zy) in Hx. congruence.
        * rewrite app_length in *. simpl in *. lia.
    - intros H. split.
      + assert (G : forall (a b : list (K * V)), NoDupE eqb (map fst a) ->
                  (forall k v, dict_get eqb k a = Some v -> dict_get eqb k b <> None) ->
                  length a <= length b).
        { clear -E. intros a. induction a as [|[k v] a IH]; simpl; intros b N Hs; [lia|].
          apply NoDupE_cons_inv in N as [N1 N2].
          pose proof (Hs k v) as Hk. rewrite (eqv_refl _ E) in Hk. specialize (Hk eq_refl).
          destruct (dict_get eqb k b) eqn:G; [|congruence].
          apply dict_get_In in G as (k' & Hi & He).
          apply in_split in Hi as (b1 & b2 & ->).
          assert (length a <= length (b1 ++ b2)).
          { apply IH; auto. intros k0 v1 G1.
            destruct (eqb k0 k) eqn:Q.
            - rewrite (dict_get_cong _ E _ _ a Q) in G1.
              rewrite dict_get_memb, G1 in N1. discriminate.
            - specialize (Hs k0 v1). rewrite Q in Hs. specialize (Hs G1).
              clear -Hs Q He E. rewrite (equiv_cong_r _ E _ _ He) in Q.
              induction b1 as [|[c w] b1 IHb]; simpl in *.
              + rewrite Q in Hs. auto.
              + destruct (eqb k0 c); auto. }
          rewrite app_length in *. simpl. lia. }
        apply Nat.le_antisymm; apply G; auto; intros k v Hg; specialize (H k); rewrite Hg in H;
          intros C; rewrite C in H; discriminate.
      + intros [k v] Hi. specialize (H k).
        rewrite (dict_get_In_iff _ E k v d1 N1 Hi) in H. simpl.
        simpl in H. destruct (dict_get eqb k d2); auto.
  Qed.

  Lemma dict_same_refl d : dict_same d d.
  Proof. intros k. apply (eqv_refl _ (option_eqb_equiv _ EV)). Qed.
  Lemma dict_same_sym d1 d2 : dict_same d1 d2 -> dict_same d2 d1.
  Proof. intros H k. rewrite (eqv_sym _ (option_eqb_equiv _ EV)). apply H. Qed.
  Lemma dict_same_trans d1 d2 d3 : dict_same d1 d2 -> dict_same d2 d3 -> dict_same d1 d3.
  Proof. intros H1 H2 k. eapply (eqv_trans _ (option_eqb_equiv _ EV)); eauto. Qed.
End DictEq.

(** ** the result monad *)
Lemma bind_Ok {A B} (r : res A) (k : A -> res B) b :
  bind r k = Ok b <-> exists a, r = Ok a /\ k a = Ok b.
Proof.
  destruct r; simpl; split.
  - eauto.
  - now intros (a' & [= ->] & H).
  - discriminate.
  - now intros (a' & H & _).
Qed.
Lemma check_Ok b e : check b e = Ok tt <-> b = true.
Proof. destruct b; simpl; split; congruence. Qed.
Lemma check_Ok' b e u : check b e = Ok u <-> b = true.
Proof. destruct b, u; simpl; split; congruence. Qed.

Lemma mapR_Ok {A B} (f : A -> res B) l l' :
  mapR f l = Ok l' <-> Forall2 (fun x y => f x = Ok y) l l'.
Proof.
  revert l'. induction l; simpl; intros l'.
  - split; [intros [= <-]; constructor|inversion 1; auto].
  - split.
    + intros H. apply bind_Ok in H as (y & Hy & H). apply bind_Ok in H as (ys & Hys & H).
      inversion H; subst. constructor; auto. now apply IHl.
    + inversion 1; subst. rewrite H2. simpl. apply IHl in H4. now rewrite H4.
Qed.
Lemma iterR_Ok {A} (f : A -> res unit) l :
  iterR f l = Ok tt <-> Forall (fun x => f x = Ok tt) l.
Proof.
  induction l; simpl; split; auto.
  - intros H. apply bind_Ok in H as ([] & H1 & H2). constructor; auto. now apply IHl.
  - inversion 1; subst. rewrite H2. simpl. now apply IHl.
Qed.
Lemma iterR_Err {A} (f : A -> res unit) l e :
  iterR f l = Err e -> exists x, In x l /\ f x = Err e.
Proof.
  induction l; simpl; [discriminate|].
  destruct (f a) as [[]|e'] eqn:F; simpl.
  - intros H. destruct (IHl H) as (x & ? & ?). eauto.
  - intros [= <-]. eauto.
Qed.
Lemma mapR_Err {A B} (f : A -> res B) l e :
  mapR f l = Err e -> exists x, In x l /\ f x = Err e.
Proof.
  induction l; simpl; [discriminate|].
  destruct (f a) as [y|e'] eqn:F; simpl.
  - destruct (mapR f l) as [ys|e''] eqn:M; simpl; [discriminate|].
    intros [= ->]. destruct (IHl eq_refl) as (x & ? & ?). eauto.
  - intros [= <-]. eauto.
Qed.
Lemma mapR_ext {A B} (f g : A -> res B) l :
  (forall x, In x l -> f x = g x) -> mapR f l = mapR g l.
Proof. induction l; simpl; intros H; auto. rewrite H, IHl; auto. Qed.
Lemma mapR_map {A B C} (f : B -> res C) (g : A -> B) l :
  mapR f (map g l) = mapR (fun x => f (g x)) l.
Proof. induction l; simpl; auto. now rewrite IHl. Qed.
Lemma mapR_pure {A B} (f : A -> B) l : mapR (fun x => Ok (f x)) l = Ok (map f l).
Proof. induction l; simpl; auto. now rewrite IHl. Qed.

(** ** string order *)
Lemma str_lt_spec a b : str_lt a b = true <-> String_as_OT.lt a b.
Proof.
  unfold str_lt. rewrite <- String_as_OT.cmp_lt. unfold String_as_OT.cmp.
  destruct (String.compare a b); split; congruence.
Qed.
Lemma str_lt_irrefl a : str_lt a a = false.
Proof.
  destruct (str_lt a a) eqn:H; auto. apply str_lt_spec in H.
  exfalso. eapply String_as_OT.lt_not_eq; eauto. reflexivity.
Qed.
Lemma str_lt_trans a b c : str_lt a b = true -> str_lt b c = true -> str_lt a c = true.
Proof. rewrite !str_lt_spec. apply String_as_OT.lt_trans. Qed.
Lemma str_compare_eq a b : String.compare a b = Eq <-> a = b.
Proof. apply String_as_OT.cmp_eq. Qed.
Lemma str_lt_total a b : a = b \/ str_lt a b = true \/ str_lt b a = true.
Proof.
  unfold str_lt. rewrite (String.compare_antisym a b).
  destruct (String.compare b a) eqn:C; simpl; auto.
  left. symmetry. now apply str_compare_eq.
Qed.
Lemma str_lt_antisym a b : str_lt a b = true -> str_lt b a = false.
Proof.
  intros H. destruct (str_lt b a) eqn:H2; auto.
  pose proof (str_lt_trans _ _ _ H H2). rewrite str_lt_irrefl in H0. discriminate.
Qed.

(** ** sorting *)
Section SortFacts.
  Context {A : Type} (lt : A -> A -> bool).
  Lemma insert_perm x l : Permutation (insert lt x l) (x :: l).
  Proof.
    induction l; simpl; auto. destruct (lt a x); auto.
    rewrite IHl. apply perm_swap.
  Qed.
  Lemma sort_perm l : Permutation (sort_by lt l) l.
  Proof. induction l; simpl; auto. rewrite insert_perm. now constructor. Qed.

  (** the sorting relation: no later element is [<] an earlier one *)
  Definition le x y := lt y x = false.

  Context (trans : forall x y z, le x y -> le y z -> le x z)
          (total : forall x y, le x y \/ le y x).

  Lemma insert_sorted x l : StronglySorted le l -> StronglySorted le (insert lt x l).
  Proof.
    induction 1; simpl.
    - repeat constructor.
    - destruct (lt a x) eqn:L.
      + constructor; auto.
        assert (le a x). { destruct (total a x) as [|T]; auto. red in T. congruence. }
        eapply Permutation_Forall; [symmetry; apply insert_perm|]. constructor; auto.
      + constructor; [constructor; auto|].
        constructor; [exact L|].
        eapply Forall_impl; [|exact H0]. intros b Hb. eapply trans; eauto.
  Qed.
  Lemma sort_sorted l : StronglySorted le (sort_by lt l).
  Proof. induction l; simpl; [constructor|]. now apply insert_sorted. Qed.

  (** sorting depends only on the multiset when equal-ranked elements are equal *)
  Context (antisym : forall x y, le x y -> le y x -> x = y).
  Lemma sorted_unique l m :
    StronglySorted le l -> StronglySorted le m -> Permutation l m -> l = m.
  Proof.
    intros Sl. revert m. induction Sl as [|a l Sl IH Fl]; intros m Sm P.
    - now apply Permutation_nil in P.
    - destruct Sm as [|b m Sm Fm].
      + symmetry in P. now apply Permutation_nil in P.
      + assert (a = b).
        { apply antisym.
          - assert (Hb : In b (a :: l)) by (eapply Permutation_in; [symmetry; eauto|left; auto]).
            destruct Hb as [->|Hb]; [destruct (total b b); auto|].
            rewrite Forall_forall in Fl. auto.
          - assert (Ha : In a (b :: m)) by (eapply Permutation_in; [eauto|left; auto]).
            destruct Ha as [->|Ha]; [destruct (total a a); auto|].
            rewrite Forall_forall in Fm. auto. }
        subst b. f_equal. apply IH; auto. eapply Permutation_cons_inv; eauto.
  Qed.
  Lemma sort_unique l m : Permutation l m -> sort_by lt l = sort_by lt m.
  Proof.
    intros P. apply sorted_unique; try apply sort_sorted.
    rewrite !sort_perm. exact P.
  Qed.
  Lemma sort_sorted_id l : StronglySorted le l -> sort_by lt l = l.
  Proof. intros S. apply sorted_unique; auto. apply sort_sorted. apply sort_perm. Qed.
End SortFacts.

Lemma str_le_trans x y z : le str_lt x y -> le str_lt y z -> le str_lt x z.
Proof.
  unfold le. intros H1 H2. destruct (str_lt z x) eqn:H; auto.
  destruct (str_lt_total y z) as [->|[Q|Q]]; try congruence.
  pose proof (str_lt_trans _ _ _ Q H). congruence.
Qed.
Lemma str_le_total x y : le str_lt x y \/ le str_lt y x.
Proof.
  unfold le. destruct (str_lt y x) eqn:H; auto. right. now apply str_lt_antisym.
Qed.
Lemma str_le_antisym x y : le str_lt x y -> le str_lt y x -> x = y.
Proof.
  unfold le. intros. destruct (str_lt_total x y) as [|[|]]; auto; congruence.
Qed.
Lemma sort_str_perm l : Permutation (sort_str l) l.
Proof. apply sort_perm. Qed.
Lemma sort_str_unique l m : Permutation l m -> sort_str l = sort_str m.
Proof. apply sort_unique; [apply str_le_trans|apply str_le_total|apply str_le_antisym]. Qed.
Lemma sort_str_In x l : In x (sort_str l) <-> In x l.
Proof. split; apply Permutation_in; [|symmetry]; apply sort_str_perm. Qed.

(** ** while loops *)
Section LoopFacts.
  Context {S R : Type} (step : S -> S + R).
  (** at most [n] steps, as a plain recursion *)
  Fixpoint steps (n : nat) (s : S) : S + R :=
    match n with
    | O => inl s
    | Datatypes.S n' => match step s with inl s' => steps n' s' | inr r => inr r end
    end.
  Lemma steps_add n m s :
    steps (n + m) s = match steps n s with inl s' => steps m s' | inr r => inr r end.
  Proof.
    revert s. induction n; simpl; intros; auto. destruct (step s); auto.
  Qed.
  Lemma loop_steps n s : loop step n s = steps (2 ^ n) s.
  Proof.
    revert s. induction n; intros; simpl.
    - destruct (step s); auto.
    - rewrite Nat.add_0_r, steps_add, IHn. destruct (steps (2 ^ n) s); auto.
  Qed.
  Lemma steps_mono n m s r : n <= m -> steps n s = inr r -> steps m s = inr r.
  Proof. intros H H1. replace m with (n + (m - n)) by lia. now rewrite steps_add, H1. Qed.
  (** a loop whose measure decreases ends *)
  Lemma steps_measure (I : S -> Prop) (mu : S -> nat) :
    (forall s s', I s -> step s = inl s' -> I s' /\ mu s' < mu s) ->
    forall n s, I s -> mu s < n -> exists r, steps n s = inr r.
  Proof.
    intros H. induction n; intros s Is Hm; [lia|]. simpl.
    destruct (step s) eqn:St; [|eauto].
    destruct (H _ _ Is St). apply IHn; auto. lia.
  Qed.
  (** an invariant holds when the loop ends *)
  Lemma steps_inv (I : S -> Prop) (P : R -> Prop) :
    (forall s s', I s -> step s = inl s' -> I s') ->
    (forall s r, I s -> step s = inr r -> P r) ->
    forall n s r, I s -> steps n s = inr r -> P r.
  Proof.
    intros H1 H2. induction n; intros s r Is Hs; [discriminate|]. simpl in Hs.
    destruct (step s) as [s'|r'] eqn:St.
    - apply (IHn s' r); auto. apply (H1 s s'); auto.
    - inversion Hs; subst. apply (H2 s r); auto.
  Qed.
End LoopFacts.
