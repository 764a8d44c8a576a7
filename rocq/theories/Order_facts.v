(** Orders: requirements (C21, C22), terms and predicates (C23). *)
From Coq Require Import String Ascii List Bool Permutation Sorted Lia.
From Verif Require Import Py Names Reqs Logic Py_facts Logic_facts Spec_Reqs.
Import ListNotations.
Open Scope string_scope.
Open Scope list_scope.

(** ** requirements *)
Lemma req_eqb_eq a b : req_eqb a b = true <-> a = b.
Proof. destruct a, b; vm_compute; split; congruence. Qed.
Lemma req_eqb_equiv : is_equiv req_eqb.
Proof.
  constructor; intros.
  - now apply req_eqb_eq.
  - unfold req_eqb. apply String.eqb_sym.
  - apply req_eqb_eq in H, H0. subst. now apply req_eqb_eq.
Qed.
Lemma memb_req_In r l : memb req_eqb r l = true <-> In r l.
Proof.
  rewrite memb_In. split.
  - intros (y & Hy & E). apply req_eqb_eq in E. now subst.
  - intros. exists r. split; auto. now apply req_eqb_eq.
Qed.
Lemma has_In r l : has r l = true <-> In r l.
Proof. apply memb_req_In. Qed.
Lemma has_false r l : has r l = false <-> ~ In r l.
Proof. rewrite <- has_In. destruct (has r l); split; intuition congruence. Qed.

Lemma extend_reqs_In s rs :
  In s (extend_reqs rs) <->
  In s rs
  \/ In QUANTIFIED_PRECONDITION rs /\ In s quantified_precondition_requirements
  \/ In ADL rs /\ In s adl_requirements
  \/ In FLUENTS rs /\ In s fluents_requirements.
Proof.
  rewrite <- !has_In. unfold extend_reqs, has.
  destruct (memb req_eqb QUANTIFIED_PRECONDITION rs) eqn:Q, (memb req_eqb ADL rs) eqn:A,
    (memb req_eqb FLUENTS rs) eqn:F;
    rewrite ?(union_spec _ req_eqb_equiv), ?(memb_dedup _ req_eqb_equiv), ?orb_true_iff;
    rewrite <- ?memb_req_In; intuition congruence.
Qed.

Lemma extend_exact : forall rs s,
  In s (extend_reqs rs) <-> In s rs \/ exists r, In r rs /\ In s (implied_by r).
Proof.
  intros rs s. rewrite extend_reqs_In. split.
  - intros [H|[[H1 H2]|[[H1 H2]|[H1 H2]]]]; auto; right.
    + now exists QUANTIFIED_PRECONDITION.
    + now exists ADL.
    + now exists FLUENTS.
  - intros [H|(r & H1 & H2)]; auto. destruct r; simpl in H2; try contradiction; auto 6.
Qed.

(** a strict order on values *)
Lemma req_value_inj a b : req_value a = req_value b -> a = b.
Proof. intros H. apply req_eqb_eq. unfold req_eqb. rewrite H. apply String.eqb_refl. Qed.
Lemma req_lt_spec a b : req_lt a b = true <-> a = b \/ str_lt (req_value a) (req_value b) = true.
Proof.
  unfold req_lt, str_lt. destruct (String.compare (req_value a) (req_value b)) eqn:C.
  - apply str_compare_eq in C. apply req_value_inj in C. tauto.
  - tauto.
  - split; [discriminate|]. intros [->|]; [|discriminate].
    assert (E : String.compare (req_value b) (req_value b) = Eq) by now apply str_compare_eq.
    congruence.
Qed.
Lemma req_le_lt a b : req_le a b = req_lt a b.
Proof.
  unfold req_le. destruct (req_lt a b) eqn:L; auto. simpl.
  destruct (req_eqb a b) eqn:E; auto. apply req_eqb_eq in E.
  assert (req_lt a b = true) by (apply req_lt_spec; auto). congruence.
Qed.
Lemma req_gt_spec a b : req_gt a b = true <-> str_lt (req_value b) (req_value a) = true.
Proof.
  unfold req_gt. rewrite andb_true_iff, !negb_true_iff. split.
  - intros [L E]. destruct (str_lt_total (req_value a) (req_value b)) as [H|[H|H]]; auto.
    + apply req_value_inj in H. subst. rewrite (proj2 (req_eqb_eq b b)) in E; congruence.
    + assert (req_lt a b = true) by (apply req_lt_spec; auto). congruence.
  - intros H. split.
    + destruct (req_lt a b) eqn:L; auto. apply req_lt_spec in L as [->|L].
      * now rewrite str_lt_irrefl in H.
      * rewrite (str_lt_antisym _ _ H) in L. discriminate.
    + destruct (req_eqb a b) eqn:E; auto. apply req_eqb_eq in E. subst. now rewrite str_lt_irrefl in H.
Qed.

(** ** sorting with an order that is total on the elements at hand *)
Section SortOn.
  Context {A : Type} (lt : A -> A -> bool) (P : A -> Prop).
  Context (trans : forall x y z, P x -> P y -> P z -> le lt x y -> le lt y z -> le lt x z)
          (total : forall x y, P x -> P y -> le lt x y \/ le lt y x).
  Lemma insert_sorted_on x l : P x -> Forall P l -> StronglySorted (le lt) l ->
    StronglySorted (le lt) (insert lt x l).
  Proof.
    intros Px Pl S. induction S; simpl; [repeat constructor|].
    inversion Pl; subst. destruct (lt a x) eqn:L.
    - constructor; auto.
      assert (le lt a x). { destruct (total a x) as [|T]; auto. red in T. congruence. }
      eapply Permutation_Forall; [symmetry; apply insert_perm|]. constructor; auto.
    - constructor; [constructor; auto|]. constructor; [exact L|].
      rewrite Forall_forall in *. intros b Hb. apply (trans x a b); auto.
  Qed.
  Lemma sort_Forall l : Forall P l -> Forall P (sort_by lt l).
  Proof. intros. eapply Permutation_Forall; [symmetry; apply sort_perm|auto]. Qed.
  Lemma sort_sorted_on l : Forall P l -> StronglySorted (le lt) (sort_by lt l).
  Proof.
    induction 1; simpl; [constructor|]. apply insert_sorted_on; auto. now apply sort_Forall.
  Qed.
  Lemma sorted_unique_on l m :
    (forall x y, In x l -> In y l -> le lt x y -> le lt y x -> x = y) -> Forall P l ->
    StronglySorted (le lt) l -> StronglySorted (le lt) m -> Permutation l m -> l = m.
  Proof.
    intros anti Pl Sl. revert m. induction Sl as [|a l Sl IH Fl]; intros m Sm Pm.
    - now apply Permutation_nil in Pm.
    - destruct Sm as [|b m Sm Fm].
      + symmetry in Pm. now apply Permutation_nil in Pm.
      + assert (Pb : P b).
        { rewrite Forall_forall in Pl. apply Pl. eapply Permutation_in; [symmetry; eauto|left; auto]. }
        assert (a = b).
        { inversion Pl; subst. apply anti.
          - left; auto.
          - eapply Permutation_in; [symmetry; eauto|left; auto].
          - assert (Hb : In b (a :: l)) by (eapply Permutation_in; [symmetry; eauto|left; auto]).
            destruct Hb as [->|Hb]; [destruct (total b b); auto|].
            rewrite Forall_forall in Fl. auto.
          - assert (Ha : In a (b :: m)) by (eapply Permutation_in; [eauto|left; auto]).
            destruct Ha as [->|Ha]; [destruct (total a a); auto|].
            rewrite Forall_forall in Fm. auto. }
        subst b. f_equal. apply IH; auto.
        * intros. apply anti; simpl; auto.
        * now inversion Pl.
        * eapply Permutation_cons_inv; eauto.
  Qed.
  Lemma sort_unique_on l m :
    (forall x y, In x l -> In y l -> le lt x y -> le lt y x -> x = y) -> Forall P l ->
    Permutation l m -> sort_by lt l = sort_by lt m.
  Proof.
    intros anti Pl Pm. apply sorted_unique_on.
    - intros x y Hx Hy. apply anti; apply (Permutation_in _ (sort_perm lt l)); auto.
    - now apply sort_Forall.
    - now apply sort_sorted_on.
    - apply sort_sorted_on. eapply Permutation_Forall; eauto.
    - rewrite !sort_perm. auto.
  Qed.
End SortOn.

(** ** lexicographic comparison *)
Section SeqLt.
  Context {A : Type} (eqb lt : A -> A -> bool).
  (** [eqb] and [lt] form a total order on the elements satisfying [P] *)
  Record tot_order (P : A -> Prop) : Prop := {
    to_eq : is_equiv eqb;
    to_tri : forall x y, P x -> P y -> eqb x y = false -> lt x y = negb (lt y x);
    to_irr : forall x y, P x -> P y -> eqb x y = true -> lt x y = false;
    to_tr : forall x y z, P x -> P y -> P z -> lt x y = true -> lt y z = true -> lt x z = true
  }.
  Lemma to_lt_cong P (T : tot_order P) x y z : P x -> P y -> P z ->
    eqb x y = true -> lt x z = true -> lt y z = true.
  Proof.
    intros Px Py Pz E L. destruct (eqb y z) eqn:Q.
    - rewrite (to_irr P T x z) in L; auto; try discriminate. eapply (eqv_trans _ (to_eq _ T)); eauto.
    - rewrite (to_tri P T y z) by auto. destruct (lt z y) eqn:Q2; auto. exfalso.
      pose proof (to_tr P T _ _ _ Px Pz Py L Q2) as C. rewrite (to_irr P T x y) in C; auto. discriminate.
  Qed.
  Lemma to_lt_cong_r P (T : tot_order P) x y z : P x -> P y -> P z ->
    eqb x y = true -> lt z x = true -> lt z y = true.
  Proof.
    intros Px Py Pz E L. destruct (eqb z y) eqn:Q.
    - rewrite (to_irr P T z x) in L; auto; try discriminate. rewrite (eqv_sym _ (to_eq _ T)) in E.
      eapply (eqv_trans _ (to_eq _ T)); eauto.
    - rewrite (to_tri P T z y) by auto. destruct (lt y z) eqn:Q2; auto. exfalso.
      pose proof (to_tr P T _ _ _ Py Pz Px Q2 L) as C. rewrite (to_irr P T y x) in C; auto; try discriminate.
      now rewrite (eqv_sym _ (to_eq _ T)).
  Qed.

  Lemma seq_tot_order P (T : tot_order P) :
    forall (P' : list A -> Prop), (forall l, P' l -> Forall P l) ->
    (forall l m, P' l -> P' m -> list_eqb eqb l m = false ->
       seq_lt eqb lt l m = negb (seq_lt eqb lt m l)) /\
    (forall l m, P' l -> P' m -> list_eqb eqb l m = true -> seq_lt eqb lt l m = false) /\
    (forall l m n, P' l -> P' m -> P' n -> seq_lt eqb lt l m = true -> seq_lt eqb lt m n = true ->
       seq_lt eqb lt l n = true).
  Proof.
    intros P' HP. pose proof (to_eq _ T) as E. repeat split.
    - intros l m Hl Hm. apply HP in Hl, Hm. revert m Hm. induction Hl; destruct 1; simpl; auto; try discriminate.
      rewrite (eqv_sym _ E x0 x). destruct (eqb x x0) eqn:Q; simpl; [apply IHHl; auto|].
      intros _. now apply (to_tri _ T).
    - intros l m Hl Hm. apply HP in Hl, Hm. revert m Hm. induction Hl; destruct 1; simpl; auto; try discriminate.
      destruct (eqb x x0) eqn:Q; simpl; [apply IHHl; auto|discriminate].
    - intros l m n Hl Hm Hn. apply HP in Hl, Hm, Hn. revert m n Hm Hn.
      induction Hl as [|x l Px Pl IH]; destruct 1 as [|y m Py Pm], 1 as [|z n Pz Pn]; simpl; auto; try discriminate.
      destruct (eqb x y) eqn:Q1, (eqb y z) eqn:Q2.
      + rewrite (eqv_trans _ E _ _ _ Q1 Q2). apply IH; auto.
      + rewrite (equiv_cong _ E _ _ Q1), Q2. intros _ L.
        rewrite (eqv_sym _ E) in Q1. eapply (to_lt_cong _ T y x z); auto.
      + rewrite <- (equiv_cong_r _ E _ _ Q2), Q1. intros L _. eapply (to_lt_cong_r _ T y z x); auto.
      + intros L1 L2. destruct (eqb x z) eqn:Q3; [|eapply (to_tr _ T x y z); eauto].
        pose proof (to_tr _ T _ _ _ Px Py Pz L1 L2) as C. rewrite (to_irr _ T x z) in C; auto. discriminate.
  Qed.
End SeqLt.

Lemma str_tot_order : tot_order String.eqb str_lt (fun _ => True).
Proof.
  constructor.
  - apply string_eqb_equiv.
  - intros x y _ _ H. apply String.eqb_neq in H.
    destruct (str_lt_total x y) as [->|[L|L]]; [congruence| |].
    + rewrite L. now rewrite (str_lt_antisym _ _ L).
    + rewrite L. now rewrite (str_lt_antisym _ _ L).
  - intros x y _ _ H. apply String.eqb_eq in H. subst. apply str_lt_irrefl.
  - intros. eapply str_lt_trans; eauto.
Qed.

Lemma strs_tot_order :
  tot_order (list_eqb String.eqb) (seq_lt String.eqb str_lt) (fun _ => True).
Proof.
  destruct (seq_tot_order _ _ _ str_tot_order (fun _ => True)) as (H1 & H2 & H3).
  { intros l _. now apply Forall_forall. }
  constructor; [apply list_eqb_equiv, string_eqb_equiv| | |].
  - intros. now apply H1.
  - intros. now apply H2.
  - intros x y z _ _ _. now apply H3.
Qed.

(** ** terms: < compares the key (class, name, sorted tags) *)
Definition tkey (t : term) : string * (string * list string) :=
  (t_class t, (t_name t, sort_str (t_tags t))).

Definition lex {A B} (ea la : A -> A -> bool) (lb : B -> B -> bool) (x y : A * B) : bool :=
  if ea (fst x) (fst y) then lb (snd x) (snd y) else la (fst x) (fst y).
Definition lexe {A B} (ea : A -> A -> bool) (eb : B -> B -> bool) (x y : A * B) : bool :=
  ea (fst x) (fst y) && eb (snd x) (snd y).
Lemma lexe_equiv {A B} (ea : A -> A -> bool) (eb : B -> B -> bool) :
  is_equiv ea -> is_equiv eb -> is_equiv (lexe ea eb).
Proof.
  intros Ea Eb. constructor; unfold lexe.
  - intros. now rewrite (eqv_refl _ Ea), (eqv_refl _ Eb).
  - intros. now rewrite (eqv_sym _ Ea), (eqv_sym _ Eb).
  - intros x y z H1 H2. apply andb_true_iff in H1 as [], H2 as []. apply andb_true_iff. split.
    + eapply (eqv_trans _ Ea); eauto.
    + eapply (eqv_trans _ Eb); eauto.
Qed.
Lemma lex_tot_order {A B} (ea la : A -> A -> bool) (eb lb : B -> B -> bool) PA PB :
  tot_order ea la PA -> tot_order eb lb PB ->
  tot_order (lexe ea eb) (lex ea la lb) (fun x => PA (fst x) /\ PB (snd x)).
Proof.
  intros TA TB. pose proof (to_eq _ _ _ TA) as EA. pose proof (to_eq _ _ _ TB) as EB.
  constructor.
  - now apply lexe_equiv.
  - intros [a b] [a' b']; unfold lexe, lex; simpl. intros [X1 X2] [X3 X4] H.
    rewrite (eqv_sym _ EA a' a). destruct (ea a a') eqn:Q; simpl in H.
    + now apply (to_tri _ _ _ TB).
    + now apply (to_tri _ _ _ TA).
  - intros [a b] [a' b']; unfold lexe, lex; simpl. intros [X1 X2] [X3 X4] H.
    apply andb_true_iff in H as [-> H]. now apply (to_irr _ _ _ TB).
  - intros [a b] [a' b'] [a'' b'']; unfold lexe, lex; simpl. intros [X1 X2] [X3 X4] [X5 X6].
    destruct (ea a a') eqn:Q1, (ea a' a'') eqn:Q2.
    + rewrite (eqv_trans _ EA _ _ _ Q1 Q2). now apply (to_tr _ _ _ TB).
    + rewrite (equiv_cong _ EA _ _ Q1), Q2. intros _ L.
      rewrite (eqv_sym _ EA) in Q1. eapply (to_lt_cong _ _ _ TA a' a a''); auto.
    + rewrite <- (equiv_cong_r _ EA _ _ Q2), Q1. intros L _. eapply (to_lt_cong_r _ _ _ TA a' a'' a); auto.
    + intros L1 L2. pose proof (to_tr _ _ _ TA _ _ _ X1 X3 X5 L1 L2) as C.
      destruct (ea a a'') eqn:Q3; auto. rewrite (to_irr _ _ _ TA a a'') in C; auto. discriminate.
Qed.

Definition tkey_eqb := lexe String.eqb (lexe String.eqb (list_eqb String.eqb)).
Definition tkey_lt := lex String.eqb str_lt (lex String.eqb str_lt (seq_lt String.eqb str_lt)).
Lemma tkey_tot_order : tot_order tkey_eqb tkey_lt (fun _ => True /\ (True /\ True)).
Proof. apply (lex_tot_order _ _ _ _ _ _ str_tot_order (lex_tot_order _ _ _ _ _ _ str_tot_order strs_tot_order)). Qed.
Lemma term_lt_key a b : term_lt a b = tkey_lt (tkey a) (tkey b).
Proof. reflexivity. Qed.

(** constants with the same name carry the same tag *)
Definition tags_agree (a b : term) : Prop :=
  match a, b with TConst n g, TConst m h => n = m -> g = h | _, _ => True end.
(** a term whose tags form a set *)
Definition tags_set (t : term) : Prop := NoDup (t_tags t).

Lemma sort_str_set l m : NoDup l -> NoDup m ->
  (set_eqb String.eqb l m = true <-> sort_str l = sort_str m).
Proof.
  intros N1 N2. rewrite set_eqb_string. split.
  - intros H. apply sort_str_unique. apply NoDup_Permutation; auto.
  - intros H x. rewrite <- (sort_str_In x l), <- (sort_str_In x m), H. tauto.
Qed.

Lemma term_eqb_key a b : tags_set a -> tags_set b -> tags_agree a b ->
  term_eqb a b = tkey_eqb (tkey a) (tkey b).
Proof.
  intros Sa Sb Ag. unfold tkey_eqb, lexe. simpl.
  destruct a as [n g|v], b as [m h|w]; simpl; auto.
  - destruct (String.eqb n m) eqn:Q; simpl; auto. apply String.eqb_eq in Q. rewrite (Ag Q).
    symmetry. apply list_string_eqb_eq. auto.
  - unfold var_eqb. f_equal. unfold tags_set in *. simpl in *.
    destruct (set_eqb String.eqb (v_tags v) (v_tags w)) eqn:Q.
    + symmetry. apply list_string_eqb_eq. now apply sort_str_set.
    + symmetry. destruct (list_eqb String.eqb (sort_str (v_tags v)) (sort_str (v_tags w))) eqn:L; auto.
      apply list_string_eqb_eq in L. apply sort_str_set in L; auto. congruence.
Qed.

(** ** terms drawn from a pool where equal constant names have equal tags *)
Definition pool (S : term -> Prop) : Prop :=
  (forall t, S t -> tags_set t) /\ (forall a b, S a -> S b -> tags_agree a b).

Lemma term_tot_order S : pool S -> tot_order term_eqb term_lt S.
Proof.
  intros [H1 H2]. destruct tkey_tot_order as [E T I R].
  constructor.
  - apply term_eqb_equiv.
  - intros x y Hx Hy. rewrite !term_lt_key, term_eqb_key by auto. intros. apply T; tauto.
  - intros x y Hx Hy. rewrite !term_lt_key, term_eqb_key by auto. intros. apply I; tauto.
  - intros x y z _ _ _. rewrite !term_lt_key. apply R; tauto.
Qed.
Lemma term_lt_trans a b c : term_lt a b = true -> term_lt b c = true -> term_lt a c = true.
Proof. rewrite !term_lt_key. apply (to_tr _ _ _ tkey_tot_order); tauto. Qed.

Lemma atom_tot_order S : pool S ->
  tot_order (fun p q => String.eqb (fst p) (fst q) && list_eqb term_eqb (snd p) (snd q))
            (fun p q => atom_lt (fst p) (snd p) (fst q) (snd q))
            (fun p : string * list term => True /\ Forall S (snd p)).
Proof.
  intros HP.
  destruct (seq_tot_order _ _ _ (term_tot_order S HP) (Forall S)) as (H1 & H2 & H3); auto.
  assert (T : tot_order (list_eqb term_eqb) (seq_lt term_eqb term_lt) (Forall S)).
  { constructor; auto. apply list_eqb_equiv, term_eqb_equiv. }
  apply (lex_tot_order _ _ _ _ _ _ str_tot_order T).
Qed.

(** the order in which a set is iterated does not matter for sorted() *)
Lemma sort_atoms_any_order S (l m : list (string * list term)) :
  pool S -> Forall (fun p => Forall S (snd p)) l ->
  NoDupE (fun p q => String.eqb (fst p) (fst q) && list_eqb term_eqb (snd p) (snd q)) l ->
  Permutation l m ->
  sort_by (fun p q => atom_lt (fst p) (snd p) (fst q) (snd q)) l
  = sort_by (fun p q => atom_lt (fst p) (snd p) (fst q) (snd q)) m.
Proof.
  intros HP Fl ND PM. pose proof (atom_tot_order S HP) as T.
  apply (sort_unique_on _ (fun p => True /\ Forall S (snd p))); auto.
  - unfold le. intros x y z Hx Hy Hz L1 L2. 
    match goal with |- ?e = false => destruct e eqn:L3; auto end. exfalso.
    destruct (String.eqb (fst y) (fst z) && list_eqb term_eqb (snd y) (snd z)) eqn:Q.
    + rewrite (eqv_sym _ (to_eq _ _ _ T)) in Q.
      pose proof (to_lt_cong _ _ _ T z y x Hz Hy Hx Q L3). simpl in H. congruence.
    + pose proof (to_tri _ _ _ T y z Hy Hz Q) as H. simpl in H. rewrite L2 in H. simpl in H.
      pose proof (to_tr _ _ _ T y z x Hy Hz Hx H L3) as H'. simpl in H'. congruence.
  - unfold le. intros x y Hx Hy.
    destruct (String.eqb (fst x) (fst y) && list_eqb term_eqb (snd x) (snd y)) eqn:Q.
    + left. rewrite (eqv_sym _ (to_eq _ _ _ T)) in Q. now apply (to_irr _ _ _ T y x Hy Hx Q).
    + pose proof (to_tri _ _ _ T x y Hx Hy Q) as H. simpl in H. rewrite H.
      destruct (atom_lt (fst y) (snd y) (fst x) (snd x)); auto.
  - intros x y Hx Hy L1 L2. unfold le in *.
    assert (Px : True /\ Forall S (snd x)) by (rewrite Forall_forall in Fl; auto).
    assert (Py : True /\ Forall S (snd y)) by (rewrite Forall_forall in Fl; auto).
    destruct (String.eqb (fst x) (fst y) && list_eqb term_eqb (snd x) (snd y)) eqn:Q.
    + (* equal members of a duplicate-free list are the same member *)
      clear -ND Hx Hy Q T. pose proof (to_eq _ _ _ T) as E. clear T.
      induction ND as [|a l M ND IH]; [destruct Hx|].
      destruct Hx as [->|Hx], Hy as [->|Hy]; auto.
      * rewrite memb_false in M. specialize (M _ Hy). simpl in M. congruence.
      * rewrite memb_false in M. specialize (M _ Hx). rewrite (eqv_sym _ E) in Q. simpl in Q, M. congruence.
    + pose proof (to_tri _ _ _ T x y Px Py Q) as H. simpl in H. rewrite L1, L2 in H. discriminate.
  - eapply Forall_impl; [|exact Fl]. auto.
Qed.
