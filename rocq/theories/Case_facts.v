(** lower() *)
From Coq Require Import String Ascii List NArith Lia.
From Verif Require Import Py Spec_Case.
Open Scope string_scope.

Lemma lower_char c :
  (exists i, get i capitals = Some c /\ get i small_letters = Some (to_lower_char c))
  \/ ((forall i, get i capitals <> Some c) /\ to_lower_char c = c).
Proof.
  assert (T : forall i c, get i capitals = Some c -> exists k, k < 26 /\ i = k /\ get k capitals = Some c).
  { intros i d H. exists i. split; auto. do 26 (destruct i; [lia|]). discriminate. }
  assert (B : forall c, (exists i, i < 26 /\ get i capitals = Some c /\ get i small_letters = Some (to_lower_char c)) \/
     (forall i, i < 26 -> get i capitals <> Some c) /\ to_lower_char c = c).
  { clear c. intros c. destruct (in_range 65 90 c) eqn:R.
    - left. destruct c as [[] [] [] [] [] [] [] []]; vm_compute in R; try discriminate R;
        (let rec f n := first [exists n; split; [lia|split; vm_compute; reflexivity] | f (S n)] in f 0).
    - right. split; [|unfold to_lower_char; now rewrite R].
      intros i L H. do 26 (destruct i as [|i]; [cbn in H; injection H as <-; vm_compute in R; discriminate R|]). lia. }
  destruct (B c) as [(i & _ & H)|[H1 H2]]; [left; eauto|right]. split; auto.
  intros i H. destruct (T i c H) as (k & L & -> & H'). now apply (H1 k).
Qed.
Lemma capital_pos i j c : get i capitals = Some c -> get j capitals = Some c -> i = j.
Proof.
  assert (P : forall i c, get i capitals = Some c -> nat_of_ascii c = 65 + i).
  { clear. intros i c H. do 26 (destruct i as [|i]; [cbn in H; injection H as <-; reflexivity|]). discriminate. }
  intros H1 H2. apply P in H1, H2. lia.
Qed.
Lemma small_pos i j c : get i small_letters = Some c -> get j small_letters = Some c -> i = j.
Proof.
  assert (P : forall i c, get i small_letters = Some c -> nat_of_ascii c = 97 + i).
  { clear. intros i c H. do 26 (destruct i as [|i]; [cbn in H; injection H as <-; reflexivity|]). discriminate. }
  intros H1 H2. apply P in H1, H2. lia.
Qed.
Lemma small_not_capital i j c : get i small_letters = Some c -> get j capitals = Some c -> False.
Proof.
  assert (P : forall i c, get i capitals = Some c -> nat_of_ascii c <= 90).
  { clear. intros i c H. do 26 (destruct i as [|i]; [cbn in H; injection H as <-; vm_compute; lia|]). discriminate. }
  assert (Q : forall i c, get i small_letters = Some c -> nat_of_ascii c >= 97).
  { clear. intros i c H. do 26 (destruct i as [|i]; [cbn in H; injection H as <-; vm_compute; lia|]). discriminate. }
  intros H1 H2. apply Q in H1. apply P in H2. lia.
Qed.
Lemma lower_char_same c c' : to_lower_char c = to_lower_char c' <-> same_letter c c'.
Proof.
  destruct (lower_char c) as [(i & H1 & H2)|[H1 H2]], (lower_char c') as [(j & H3 & H4)|[H3 H4]]; split.
  - intros E. left. rewrite E in H2. assert (i = j) by (eapply small_pos; eauto). subst. congruence.
  - intros [->|(k & [[K1 K2]|[K1 K2]])]; auto; exfalso; eapply small_not_capital; eauto.
  - intros E. right. exists i. left. split; auto. congruence.
  - intros [->|(k & [[K1 K2]|[K1 K2]])]; auto.
    + assert (i = k) by (eapply capital_pos; eauto). subst. congruence.
    + now destruct (H3 k).
  - intros E. right. exists j. right. split; auto. congruence.
  - intros [->|(k & [[K1 K2]|[K1 K2]])]; auto.
    + now destruct (H1 k).
    + assert (j = k) by (eapply capital_pos; eauto). subst. congruence.
  - intros E. left. congruence.
  - intros [->|(k & [[K1 K2]|[K1 K2]])]; auto; [now destruct (H1 k)|now destruct (H3 k)].
Qed.
Lemma lower_same s : forall s', lower s = lower s' <-> same_but_case s s'.
Proof.
  unfold same_but_case. induction s as [|c s IH]; intros [|c' s']; cbn; split; try discriminate; try (now inversion 1); auto.
  - intros [= E1 E2]. constructor; [now apply lower_char_same|now apply IH].
  - inversion 1 as [|? ? ? ? E1 E2]; subst. f_equal; [now apply lower_char_same|now apply IH].
Qed.
