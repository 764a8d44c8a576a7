(** Facts: comparing sequences of terms only ever uses [<] on terms that are not equal, and
    there it is a total order whatever the types of the constants are. *)
From Coq Require Import String List Bool Permutation.
From Verif Require Import Py Py_facts Logic Logic_facts Order_facts.
Import ListNotations.
Open Scope string_scope.

Definition term_slt (a b : term) : bool := negb (term_eqb a b) && term_lt a b.

(** the key without the type of a constant *)
Definition skey (t : term) : term :=
  match t with TConst n _ => TConst n None | TVar v => TVar v end.
Lemma skey_eqb a b : term_eqb (skey a) (skey b) = term_eqb a b.
Proof. now destruct a, b. Qed.
Lemma skey_slt a b : term_slt a b = term_slt (skey a) (skey b).
Proof.
  destruct a as [n g|v], b as [m h|w]; unfold term_slt; simpl; auto.
  destruct (String.eqb n m) eqn:E; simpl; auto.
  unfold term_lt. simpl. now rewrite E.
Qed.
Lemma skey_set t : tags_set t -> tags_set (skey t).
Proof. destruct t as [n [g|]|v]; simpl; auto. intros _. constructor. Qed.

Lemma slt_lt a b : term_eqb a b = false -> term_slt a b = term_lt a b.
Proof. unfold term_slt. now intros ->. Qed.

Definition skeys (t : term) : Prop := tags_set t /\ match t with TConst _ (Some _) => False | _ => True end.
Lemma skeys_pool : pool skeys.
Proof.
  split; [now intros t []|]. intros [n [g|]|v] [m [h|]|w] [_ A] [_ B]; simpl in *; tauto.
Qed.
Lemma skeys_skey t : tags_set t -> skeys (skey t).
Proof. intros H. split; [now apply skey_set|]. now destruct t. Qed.

Lemma slt_tot_order : tot_order term_eqb term_slt tags_set.
Proof.
  pose proof (term_tot_order _ skeys_pool) as T.
  assert (E : forall a b, tags_set a -> tags_set b -> term_slt a b = term_lt (skey a) (skey b)).
  { intros a b Ha Hb. rewrite skey_slt. unfold term_slt.
    destruct (term_eqb (skey a) (skey b)) eqn:Q; simpl; auto.
    symmetry. apply (to_irr _ _ _ T); auto using skeys_skey. }
  constructor.
  - apply term_eqb_equiv.
  - intros x y Hx Hy Q. rewrite !E by auto. apply (to_tri _ _ _ T); auto using skeys_skey.
    now rewrite skey_eqb.
  - intros x y Hx Hy Q. unfold term_slt. now rewrite Q.
  - intros x y z Hx Hy Hz. rewrite !E by auto. apply (to_tr _ _ _ T); auto using skeys_skey.
Qed.

Lemma seq_slt l : forall m, seq_lt term_eqb term_lt l m = seq_lt term_eqb term_slt l m.
Proof.
  induction l as [|x l IH]; intros [|y m]; simpl; auto. rewrite IH.
  destruct (term_eqb x y) eqn:E; auto. now rewrite slt_lt.
Qed.

Lemma seq_strict : tot_order (list_eqb term_eqb) (seq_lt term_eqb term_lt) (Forall tags_set).
Proof.
  destruct (seq_tot_order _ _ _ slt_tot_order (Forall tags_set)) as (H1 & H2 & H3); auto.
  constructor.
  - apply list_eqb_equiv, term_eqb_equiv.
  - intros x y. rewrite !seq_slt. auto.
  - intros x y. rewrite !seq_slt. auto.
  - intros x y z. rewrite !seq_slt. apply H3.
Qed.

Lemma atom_strict :
  tot_order (fun p q => String.eqb (fst p) (fst q) && list_eqb term_eqb (snd p) (snd q))
            (fun p q => atom_lt (fst p) (snd p) (fst q) (snd q))
            (fun p : string * list term => True /\ Forall tags_set (snd p)).
Proof. apply (lex_tot_order _ _ _ _ _ _ str_tot_order seq_strict). Qed.

(** the order in which a set is iterated does not matter for sorted() *)
Lemma sort_any_order {A} (eqb lt : A -> A -> bool) (P : A -> Prop) (l m : list A) :
  tot_order eqb lt P -> Forall P l -> NoDupE eqb l -> Permutation l m ->
  sort_by lt l = sort_by lt m.
Proof.
  intros T Fl ND PM. apply (sort_unique_on _ P); auto.
  - unfold le. intros x y z Hx Hy Hz L1 L2. destruct (lt z x) eqn:L3; auto. exfalso.
    destruct (eqb y z) eqn:Q.
    + rewrite (eqv_sym _ (to_eq _ _ _ T)) in Q.
      pose proof (to_lt_cong _ _ _ T z y x Hz Hy Hx Q L3). congruence.
    + pose proof (to_tri _ _ _ T y z Hy Hz Q) as H. rewrite L2 in H. simpl in H.
      pose proof (to_tr _ _ _ T y z x Hy Hz Hx H L3). congruence.
  - unfold le. intros x y Hx Hy. destruct (eqb x y) eqn:Q.
    + left. rewrite (eqv_sym _ (to_eq _ _ _ T)) in Q. now apply (to_irr _ _ _ T y x Hy Hx Q).
    + pose proof (to_tri _ _ _ T x y Hx Hy Q) as H. rewrite H. destruct (lt y x); auto.
  - intros x y Hx Hy L1 L2. unfold le in *.
    assert (Px : P x) by (rewrite Forall_forall in Fl; auto).
    assert (Py : P y) by (rewrite Forall_forall in Fl; auto).
    destruct (eqb x y) eqn:Q.
    + clear -ND Hx Hy Q T. pose proof (to_eq _ _ _ T) as E. clear T.
      induction ND as [|a l M ND IH]; [destruct Hx|].
      destruct Hx as [->|Hx], Hy as [->|Hy]; auto.
      * rewrite memb_false in M. specialize (M _ Hy). simpl in M. congruence.
      * rewrite memb_false in M. specialize (M _ Hx). rewrite (eqv_sym _ E) in Q. congruence.
    + pose proof (to_tri _ _ _ T x y Px Py Q) as H. rewrite L1, L2 in H. discriminate.
Qed.
