(** Facts about the outcomes of effects. *)
From Coq Require Import String List Bool Arith ZArith QArith Permutation Lia.
From Verif Require Import Py Names Reqs Logic Lexer TypedList Parser.
From Verif Require Import Sem Spec_Parse Spec_Numbers Spec_Meaning Spec_Effect.
From Verif Require Import Py_facts Logic_facts Ops_facts Built_facts Inst_facts Parse_facts GD_facts Derived_facts Number_facts Names_facts Meaning_facts.
Import ListNotations.
Open Scope string_scope.
Open Scope list_scope.
Open Scope nat_scope.

Section Outcomes.
  Variable I : interp.
  Notation changes := (changes I).
  Notation same_changes := (same_changes I).

  Lemma same_refl (D : changes) : same_changes D D.
  Proof. intros c k. reflexivity. Qed.
  Lemma same_sym (D E : changes) : same_changes D E -> same_changes E D.
  Proof. intros H c k. symmetry. apply H. Qed.
  Lemma same_trans (D E F : changes) : same_changes D E -> same_changes E F -> same_changes D F.
  Proof. intros H K c k. rewrite (H c k). apply K. Qed.

  Lemma same_change_sym (a b : change I) : same_change I a b -> same_change I b a.
  Proof.
    destruct a, b; cbn; try (intros H; discriminate H); try (intros H; now symmetry).
    intros (-> & -> & -> & H). repeat split. now symmetry.
  Qed.
  Lemma same_change_trans (a b c : change I) : same_change I a b -> same_change I b c -> same_change I a c.
  Proof.
    destruct a, b; cbn; try (intros H; discriminate H); try (intros [= -> ->]; auto);
    destruct c; cbn; try (intros ? H; discriminate H).
    intros (-> & -> & -> & H) (-> & -> & -> & K). repeat split. now rewrite H.
  Qed.
  Lemma same_change_additive (a b : change I) : same_change I a b -> additive I a -> additive I b.
  Proof. destruct a, b; cbn; try tauto; try discriminate. intros (-> & _). auto. Qed.

  (** collections of changes *)
  Definition proper (D : changes) : Prop :=
    (forall c, D c 0) /\ (forall c j k, j <= k -> D c k -> D c j) /\ (forall c k, D c k -> counted I c k).
  Lemma counted_le c j k : j <= k -> counted I c k -> counted I c j.
  Proof. unfold counted. intros L [H|H]; [left; lia|now right]. Qed.

  Lemma nothing_proper D : nothing I D -> proper D.
  Proof.
    intros H. split; [|split].
    - intros c. now apply H.
    - intros c j k L K. apply H in K. apply H. lia.
    - intros c k K. apply H in K. left. lia.
  Qed.
  Lemma once_proper c0 D : once I c0 D -> proper D.
  Proof.
    intros H. split; [|split].
    - intros c. apply H. now left.
    - intros c j k L K. apply H in K. apply H. destruct K as [->|[-> S]]; [left; lia|].
      destruct j as [|[|]]; [now left|now right|lia].
    - intros c k K. apply H in K. left. lia.
  Qed.
  Lemma together_proper Ds D : Forall proper Ds -> together I Ds D -> proper D.
  Proof.
    intros P T. split; [|split].
    - intros c. apply T. exists (map (fun _ => 0) Ds). split; [|split; [lia|left; lia]].
      clear T. induction P as [|E Ds [Z _] P IH]; constructor; auto.
    - intros c j k L K. apply T in K as (ks & F & S & N). apply T. exists ks. split; auto. split; [lia|].
      eapply counted_le; eauto.
    - intros c k K. now apply T in K as (ks & _ & _ & N).
  Qed.
  Lemma only_if_proper P E D : proper E -> only_if I P E D -> proper D.
  Proof.
    intros (Z & L & C) O. split; [|split].
    - intros c. apply O. now left.
    - intros c j k LE K. apply O in K. apply O. destruct K as [->|[p K]]; [left; lia|]. right. split; auto.
      eapply L; eauto.
    - intros c k K. apply O in K as [->|[_ K]]; [left; lia|]. now apply C.
  Qed.
  Lemma everywhere_proper B F D : everywhere I B F D -> proper D.
  Proof.
    intros E. split; [|split].
    - intros c. apply E. exists [], []. repeat split; try constructor; auto.
    - intros c j k L K. apply E in K as (es & ks & H1 & H2 & H3 & S & N). apply E. exists es, ks.
      repeat split; auto; [lia|]. eapply counted_le; eauto.
    - intros c k K. now apply E in K as (es & ks & _ & _ & _ & _ & N).
  Qed.

  Lemma once_same c0 D E : same_changes D E -> once I c0 D -> once I c0 E.
  Proof. intros S H c k. rewrite <- (S c k). apply H. Qed.
  Lemma nothing_same D E : same_changes D E -> nothing I D -> nothing I E.
  Proof. intros S H c k. rewrite <- (S c k). apply H. Qed.
  Lemma together_same Ds D E : same_changes D E -> together I Ds D -> together I Ds E.
  Proof. intros S H c k. rewrite <- (S c k). apply H. Qed.
  Lemma only_if_same P F D E : same_changes D E -> only_if I P F D -> only_if I P F E.
  Proof. intros S H c k. rewrite <- (S c k). apply H. Qed.
  Lemma everywhere_same B F D E : same_changes D E -> everywhere I B F D -> everywhere I B F E.
  Proof. intros S H c k. rewrite <- (S c k). apply H. Qed.

  Lemma once_change a b D : same_change I a b -> once I a D -> once I b D.
  Proof.
    intros S H c k. rewrite (H c k). split; intros [->|[-> X]]; auto; right; split; auto;
    eapply same_change_trans; eauto using same_change_sym.
  Qed.
  Lemma everywhere_iff (B B' : env I -> Prop) F D : (forall e, B e <-> B' e) ->
    everywhere I B F D -> everywhere I B' F D.
  Proof.
    intros BB H c k. rewrite (H c k). split; intros (es & ks & X & R); exists es, ks; (split; [|exact R]);
    (eapply Forall_impl; [|exact X]); intros a; apply BB.
  Qed.
  Lemma only_if_iff (P Q : Prop) F D : (P <-> Q) -> only_if I P F D -> only_if I Q F D.
  Proof. intros PQ H c k. rewrite (H c k), PQ. reflexivity. Qed.

  (** ** Outcomes of formulas *)
  Lemma outcome_same e f D E : same_changes D E -> outcome I e f D -> outcome I e f E.
  Proof.
    intros S H. revert E S. induction f using form_ind'; intros E S; inversion H; subst.
    - apply oc_add. eapply once_same; eauto.
    - eapply oc_num; eauto. eapply once_same; eauto.
    - eapply oc_and; eauto. eapply together_same; eauto.
    - eapply oc_oneof; [eassumption|]. rewrite Forall_forall in H0. eapply H0; eauto.
    - apply oc_del. eapply once_same; eauto.
    - eapply oc_when; eauto. eapply only_if_same; eauto.
    - eapply oc_forall; eauto. eapply everywhere_same; eauto.
  Qed.

  Lemma outcome_proper f : forall e D, outcome I e f D -> proper D.
  Proof.
    induction f using form_ind'; intros e D O; inversion O; subst; eauto using once_proper, only_if_proper, everywhere_proper.
    - eapply together_proper; [|eassumption].
      match goal with F : Forall2 _ ops Ds |- _ => clear - H F; induction F; constructor; inversion H; subst; eauto end.
    - rewrite Forall_forall in H. eauto.
  Qed.

  Lemma outcome_eq f : forall g e D, form_eqb f g = true -> (outcome I e f D <-> outcome I e g D).
  Proof.
    assert (W : forall f g, (forall e D, form_eqb f g = true -> outcome I e f D -> outcome I e g D) ->
      (forall e D, form_eqb g f = true -> outcome I e g D -> outcome I e f D) ->
      forall e D, form_eqb f g = true -> (outcome I e f D <-> outcome I e g D)).
    { intros f0 g H K e D E. split; [auto|]. apply K. now rewrite (eqv_sym _ form_eqb_equiv). }
    assert (M : forall f g e D, form_eqb f g = true -> outcome I e f D -> outcome I e g D).
    { clear W f. pose proof (set_eqb_equiv _ var_eqb_equiv) as EV.
      induction f using form_ind'; destruct g; intros e D E O; try discriminate; inversion O; subst.
      - cbn [form_eqb] in E. apply andb_true_iff in E as [E1 E2]. apply String.eqb_eq in E1 as <-.
        apply oc_add. now rewrite <- (dens_eq I e _ _ E2).
      - cbn [form_eqb] in E. apply andb_true_iff in E as [E1 E2]. apply bfun_eqb_eq in E1 as <-.
        destruct ops0 as [|g1 [|g2 [|]]]; cbn [list_eqb] in E2; try discriminate;
          rewrite ?andb_true_iff in E2; try (destruct E2 as (_ & _ & X); discriminate X);
          try (destruct E2 as (_ & X); discriminate X).
        destruct E2 as (E2 & E3 & _). destruct g1; try discriminate. cbn [form_eqb] in E2.
        apply andb_true_iff in E2 as [E4 E5]. apply String.eqb_eq in E4 as <-.
        eapply oc_num; [eassumption|]. eapply once_change; [|eassumption].
        cbn. rewrite (dens_eq I e _ _ E5). repeat split; auto. now apply value_eq.
      - cbn [form_eqb] in E. apply andb_true_iff in E as [E1 E2]. destruct k0; try discriminate.
        eapply oc_and; [|eassumption].
        match goal with F : Forall2 _ _ Ds |- _ => clear - H F E2; revert ops0 E2; induction F end;
        intros [|g gs] E2; cbn [list_eqb] in E2; try discriminate; constructor;
        apply andb_true_iff in E2 as [E2 E3]; inversion H; subst; eauto.
      - cbn [form_eqb] in E. apply andb_true_iff in E as [E1 E2]. destruct k0; try discriminate.
        assert (X : exists g, In g ops0 /\ outcome I e g D).
        { match goal with F : In ?f0 ops, P : outcome I e ?f0 D |- _ => clear - H E2 F P; revert ops0 E2;
            induction H as [|h hs Hh Hs IH]; [destruct F|] end.
          intros [|g gs] E2; cbn [list_eqb] in E2; try discriminate. apply andb_true_iff in E2 as [E2 E3].
          destruct H2 as [->|F]; [exists g; split; [now left|eauto]|].
          destruct (IH F _ E3) as (g' & I1 & I2). exists g'. split; [now right|auto]. }
        destruct X as (g & X1 & X2). eapply oc_oneof; eauto.
      - destruct g; try discriminate. cbn [form_eqb] in E. apply andb_true_iff in E as [E1 E2].
        apply String.eqb_eq in E1 as <-. apply oc_del. now rewrite <- (dens_eq I e _ _ E2).
      - cbn [form_eqb] in E. apply andb_true_iff in E as [E1 E2]. eapply oc_when; [eauto|].
        eapply only_if_iff; [|eassumption]. now apply holds_eq.
      - cbn [form_eqb] in E. apply andb_true_iff in E as [E1 E2].
        assert (X : forall e', extends I vs e e' <-> extends I vs0 e e').
        { intros e'. split; apply extends_eq; auto. now rewrite (eqv_sym _ EV). }
        eapply oc_forall; [|eassumption|eapply everywhere_iff; eassumption].
        intros e' X'. apply X in X'. eauto. }
    intros g. apply W; intros e D E O; eapply M; eauto.
  Qed.

  (** ** Conjunctions *)
  Definition sums (e : env I) (fs : list form) (D : changes) : Prop :=
    exists Ds, Forall2 (outcome I e) fs Ds /\ together I Ds D.
  Definition flat (D : changes) : Prop := forall c k, D c k -> k = 0 \/ (k = 1 /\ ~ additive I c).
  (** at most one outcome, in which nothing adds up *)
  Definition simple (e : env I) (f : form) : Prop :=
    forall D E, outcome I e f D -> outcome I e f E -> same_changes D E /\ flat D.

  Lemma list_sum_perm l m : Permutation l m -> list_sum l = list_sum m.
  Proof. induction 1; simpl in *; lia. Qed.
  Lemma together_perm Ds Es D : Permutation Ds Es -> together I Ds D -> together I Es D.
  Proof.
    intros P T c k. rewrite (T c k). split; intros (ks & F & S & N).
    - destruct (Permutation_Forall2 P F) as (js & Q & F'). exists js. split; auto.
      split; auto. now rewrite <- (list_sum_perm _ _ Q).
    - symmetry in P. destruct (Permutation_Forall2 P F) as (js & Q & F'). exists js. split; auto.
      split; auto. now rewrite <- (list_sum_perm _ _ Q).
  Qed.
  Lemma sums_perm e fs gs D : Permutation fs gs -> sums e fs D -> sums e gs D.
  Proof.
    intros P (Ds & F & T). destruct (Permutation_Forall2 P F) as (Es & Q & F'). exists Es. split; auto.
    eapply together_perm; eauto.
  Qed.

  Lemma together_drop D1 D2 Ds D : same_changes D1 D2 -> proper D1 -> flat D1 ->
    (together I (D1 :: D2 :: Ds) D <-> together I (D1 :: Ds) D).
  Proof.
    intros S P F.
    assert (X : forall c k, (exists ks, Forall2 (fun E j => E c j) (D1 :: D2 :: Ds) ks /\ k <= list_sum ks /\ counted I c k)
      <-> (exists ks, Forall2 (fun E j => E c j) (D1 :: Ds) ks /\ k <= list_sum ks /\ counted I c k)).
    { intros c k. split; intros (ks & G & L & N).
      - inversion G as [|? k1 ? ks1 H1 G1]; subst. inversion G1 as [|? k2 ? ks2 H2 G2]; subst.
        apply S in H2. simpl in L.
        destruct (F _ _ H1) as [->|[-> A]].
        + exists (k2 :: ks2). split; [constructor; auto|]. split; auto.
        + destruct N as [N|N]; [|contradiction]. exists (1 :: ks2). split; [constructor; auto|].
          split; [simpl; lia|now left].
      - inversion G as [|? k1 ? ks1 H1 G1]; subst. exists (k1 :: 0 :: ks1). split; [|split; auto].
        constructor; auto. constructor; auto. apply S, P. }
    unfold together. split; intros T c k; rewrite (T c k); [|symmetry]; apply X.
  Qed.
  Lemma sums_drop e x y fs D : form_eqb x y = true -> simple e x ->
    (sums e (x :: y :: fs) D <-> sums e (x :: fs) D).
  Proof.
    intros E S. split; intros (Ds & F & T).
    - inversion F as [|? D1 ? Ds1 H1 F1]; subst. inversion F1 as [|? D2 ? Ds2 H2 F2]; subst.
      apply (outcome_eq x y) in H2; auto. destruct (S _ _ H1 H2) as [SM FL].
      exists (D1 :: Ds2). split; [constructor; auto|].
      now apply (together_drop D1 D2 Ds2 D SM (outcome_proper _ _ _ H1) FL).
    - inversion F as [|? D1 ? Ds1 H1 F1]; subst. exists (D1 :: D1 :: Ds1). split.
      + constructor; auto. constructor; auto. now apply (outcome_eq x y).
      + destruct (S _ _ H1 H1) as [SM FL].
        now apply (together_drop D1 D1 Ds1 D SM (outcome_proper _ _ _ H1) FL).
  Qed.

  Lemma sums_dedup_from e l : forall seen D,
    (forall y x, In y seen -> In x l -> form_eqb y x = true -> simple e y) ->
    ForallOrdPairs (fun y x => form_eqb y x = true -> simple e y) l ->
    (sums e (seen ++ l) D <-> sums e (seen ++ dedup_from form_eqb seen l) D).
  Proof.
    induction l as [|x xs IH]; intros seen D H P; [reflexivity|].
    inversion P as [|? ? P1 P2]; subst. cbn [dedup_from].
    destruct (memb form_eqb x seen) eqn:Mx.
    - rewrite <- IH; auto; [|intros y z Y Z; apply H; simpl; auto].
      apply memb_In in Mx as (y & Y & E). rewrite (eqv_sym _ form_eqb_equiv) in E.
      destruct (in_split _ _ Y) as (a & b & ->).
      assert (Q1 : Permutation ((a ++ y :: b) ++ x :: xs) (y :: x :: (a ++ b) ++ xs)).
      { rewrite <- !app_assoc. cbn [app]. rewrite <- Permutation_middle. constructor.
        rewrite !app_assoc. symmetry. apply Permutation_middle. }
      assert (Q2 : Permutation ((a ++ y :: b) ++ xs) (y :: (a ++ b) ++ xs)).
      { rewrite <- !app_assoc. cbn [app]. now rewrite <- Permutation_middle. }
      assert (Sy : simple e y) by (apply (H y x); auto; simpl; auto).
      split; intros X.
      + eapply sums_perm; [symmetry; exact Q2|]. apply (sums_perm _ _ _ _ Q1) in X.
        exact (proj1 (sums_drop e y x _ D E Sy) X).
      + eapply sums_perm; [symmetry; exact Q1|]. apply (sums_perm _ _ _ _ Q2) in X.
        exact (proj2 (sums_drop e y x _ D E Sy) X).
    - assert (Q : forall l, Permutation (seen ++ x :: l) ((x :: seen) ++ l)).
      { intros. symmetry. apply Permutation_middle. }
      assert (K : sums e ((x :: seen) ++ xs) D <-> sums e ((x :: seen) ++ dedup_from form_eqb (x :: seen) xs) D).
      { apply IH; [|exact P2]. intros y z [<-|Y] Z EQ; [rewrite Forall_forall in P1; exact (P1 z Z EQ)|].
        apply (H y z); simpl; auto. }
      split; intros X.
      + eapply sums_perm; [symmetry; apply Q|]. apply K. eapply sums_perm; [apply Q|exact X].
      + eapply sums_perm; [symmetry; apply Q|]. apply K. eapply sums_perm; [apply Q|exact X].
  Qed.

  Lemma together_one D1 D : proper D1 -> (together I [D1] D <-> same_changes D1 D).
  Proof.
    intros (Z & L & C).
    assert (X : forall c k, (exists ks, Forall2 (fun E j => E c j) [D1] ks /\ k <= list_sum ks /\ counted I c k) <-> D1 c k).
    { intros c k. split.
      - intros (ks & F & S & N). inversion F as [|? j ? ? H F']; subst. inversion F'; subst. simpl in S.
        apply (L c k j); [lia|auto].
      - intros H. exists [k]. split; [repeat constructor; auto|]. split; [simpl; lia|auto]. }
    unfold together, Spec_Effect.same_changes. split; intros H c k.
    - rewrite (H c k). symmetry. apply X.
    - rewrite <- (H c k). symmetry. apply X.
  Qed.

  Lemma mk_and_sums e fs D :
    Forall (fun f => ops_if (CBin OAnd) f = None) fs ->
    ForallOrdPairs (fun y x => form_eqb y x = true -> simple e y) fs ->
    (outcome I e (mk_and fs) D <-> sums e fs D).
  Proof.
    intros N P. pose proof (sums_dedup_from e fs [] D (fun y x Y => match Y with end) P) as SD.
    cbn [app] in SD. rewrite SD. clear SD.
    change (dedup_from form_eqb [] fs) with (dedup form_eqb fs).
    assert (M : mk_and fs = match dedup form_eqb fs with [x] => x | l => FBin OAnd l end).
    { unfold mk_and, mk_op. cbn [metaclass]. rewrite simplify_spec. cbv iota.
      destruct (dedup form_eqb fs) as [|x [|y l]] eqn:E; try reflexivity.
      assert (F : flat_map (leaves (CBin OAnd)) (x :: y :: l) = x :: y :: l).
      { assert (N' : Forall (fun f => ops_if (CBin OAnd) f = None) (x :: y :: l)).
        { rewrite <- E, Forall_forall. rewrite Forall_forall in N. intros f Hf. apply N. eapply dedup_In; eauto. }
        clear - N'. induction N' as [|f m Hf N' IH]; [reflexivity|]. cbn [flat_map]. rewrite IH.
        rewrite leaves_ops_if, Hf. reflexivity. }
      rewrite F, <- E, (dedup_idem _ form_eqb_equiv), E. reflexivity. }
    rewrite M. clear M.
    assert (G : forall l, (outcome I e (FBin OAnd l) D <-> sums e l D)).
    { intros l. split; [intros O; inversion O; subst; eexists; eauto|intros (Ds & A & B); eapply oc_and; eauto]. }
    destruct (dedup form_eqb fs) as [|x [|y l]]; try apply G.
    split.
    - intros O. exists [D]. split; [constructor; [auto|constructor]|].
      apply together_one; [eauto using outcome_proper|apply same_refl].
    - intros (Ds & F & T). inversion F as [|? D1 ? ? O F']; subst. inversion F'; subst.
      eapply outcome_same; [|exact O]. apply together_one; [eauto using outcome_proper|exact T].
  Qed.

  (** ** Outcomes of texts *)
  Lemma does_same e x : forall D E, same_changes D E -> does I e x D -> does I e x E.
  Proof.
    induction x as [t|l IH] using sexp_ind'; intros D E S H; [inversion H|].
    inversion H; subst; [apply do_nothing|eapply do_add|eapply do_del|eapply do_num|eapply do_and
      |eapply do_when|eapply do_forall|eapply do_oneof]; eauto using nothing_same, once_same, together_same,
      only_if_same, everywhere_same.
    inversion IH as [|? ? _ IHl]; subst. rewrite Forall_forall in IHl. eapply IHl; eauto.
  Qed.

  Lemma once_flat c0 D : once I c0 D -> ~ additive I c0 -> flat D.
  Proof.
    intros H N c k K. apply H in K as [->|[-> S]]; auto. right. split; auto. intros A. apply N.
    eapply same_change_additive; eauto.
  Qed.
  Lemma once_unique c0 c1 D E : same_change I c0 c1 -> once I c0 D -> once I c1 E -> same_changes D E.
  Proof.
    intros S H K. apply (once_change _ _ _ S) in H. intros c k. rewrite (H c k), (K c k). reflexivity.
  Qed.
  Lemma together_unique Ds Es D E : Forall2 same_changes Ds Es -> together I Ds D -> together I Es E ->
    same_changes D E.
  Proof.
    intros F H K c k. rewrite (H c k), (K c k).
    assert (X : forall ks, Forall2 (fun G j => G c j) Ds ks <-> Forall2 (fun G j => G c j) Es ks).
    { clear - F. induction F as [|A B As Bs S F IH]; intros ks.
      - split; intros G; inversion G; constructor.
      - split; intros G; inversion G; subst; constructor; try (now apply S); now apply IH. }
    split; intros (ks & G & R); exists ks; (split; [now apply X|exact R]).
  Qed.
  Lemma counts_flat {A} (P : A -> nat -> Prop) c l ks k :
    Forall (fun a => forall j, P a j -> j = 0 \/ (j = 1 /\ ~ additive I c)) l ->
    Forall2 P l ks -> k <= list_sum ks -> counted I c k -> k = 0 \/ (k = 1 /\ ~ additive I c).
  Proof.
    intros F G L C.
    assert (X : list_sum ks = 0 \/ ~ additive I c).
    { clear - F G. induction G as [|a j l ks Pa G IH]; [now left|]. inversion F as [|? ? Fa Fl]; subst.
      destruct (Fa _ Pa) as [->|[_ ?]]; [|now right]. destruct (IH Fl) as [X|X]; [left; simpl; lia|now right]. }
    destruct X as [X|X]; [left; lia|]. destruct C as [C|C]; [|contradiction]. destruct k as [|[|]]; auto. lia.
  Qed.
  Lemma together_flat Ds D : Forall flat Ds -> together I Ds D -> flat D.
  Proof.
    intros F T c k K. apply T in K as (ks & G & L & C).
    apply (counts_flat (fun (E : changes) j => E c j) c Ds ks k); auto.
    eapply Forall_impl; [|exact F]. intros E FE j. apply FE.
  Qed.
  Lemma everywhere_unique (B : env I -> Prop) (F G : env I -> changes) D E : (forall e, B e -> same_changes (F e) (G e)) ->
    everywhere I B F D -> everywhere I B G E -> same_changes D E.
  Proof.
    intros X H K c k. rewrite (H c k), (K c k).
    assert (Y : forall es ks, Forall B es ->
      (Forall2 (fun e' j => F e' c j) es ks <-> Forall2 (fun e' j => G e' c j) es ks)).
    { intros es ks Be. revert ks. induction Be as [|e es b Be IH]; intros ks.
      - split; intros Z; inversion Z; constructor.
      - split; intros Z; inversion Z; subst; constructor; try (now apply (X e b)); now apply IH. }
    split; intros (es & ks & Be & R & Z & Q); exists es, ks; (split; [auto|split; [auto|split; [now apply Y|auto]]]).
  Qed.
  Lemma everywhere_flat (B : env I -> Prop) (F : env I -> changes) D : (forall e, B e -> flat (F e)) -> everywhere I B F D -> flat D.
  Proof.
    intros X H c k K. apply H in K as (es & ks & Be & _ & G & L & C).
    apply (counts_flat (fun e' j => F e' c j) c es ks k); auto.
    eapply Forall_impl; [|exact Be]. intros e b j. now apply X.
  Qed.
  Lemma counts_in x l : In x l -> counts x -> counts (SList l).
  Proof. intros X (w & m & W & N). exists w, m. split; auto. eapply inside_in; eauto. Qed.
  Lemma counts_head w l : In w ["oneof"; "increase"; "decrease"; "scale-up"; "scale-down"] ->
    counts (SList (name_sx w :: l)).
  Proof. intros W. exists w, l. split; auto. constructor. Qed.

  Lemma Forall2_and {A B} (P : A -> A -> Prop) (R : B -> A -> Prop) l xs ys :
    Forall (fun b => forall x y, R b x -> R b y -> P x y) l -> Forall2 R l xs -> Forall2 R l ys -> Forall2 P xs ys.
  Proof.
    intros F G. revert ys F. induction G; intros ys F K; inversion K; subst; constructor; inversion F; subst; eauto.
  Qed.
  Lemma does_simple x : ~ counts x -> forall e D E, does I e x D -> does I e x E ->
    same_changes D E /\ flat D.
  Proof.
    induction x as [t|l IH] using sexp_ind'; intros N e D E HD HE; [inversion HD|].
    assert (NI : forall x, In x l -> ~ counts x) by (intros x X C; apply N; eapply counts_in; eauto).
    assert (DU : forall n m os os', denotes I e m os -> denotes I e m os' -> 
      same_change I (Add n os) (Add n os') /\ same_change I (Del n os) (Del n os')).
    { intros n m os os' A B. rewrite (denotes_unique _ _ _ _ A _ B). cbn. auto. }
    inversion HD as [D0 N0|n m os D0 NW DN ON|n m os D0 DN ON|w h n m os x q D0 WI FT DN AM ON|m Ds D0 F1 T1|x y E0 D0 Y1 O1
      |vs y F1 D0 B1 R1 V1|m y D0 Y1 O1]; subst.
    - inversion HE; subst. match goal with A : nothing I D, B : nothing I E |- _ => split;
        [intros c k; rewrite (A c k), (B c k); reflexivity|intros c k K; apply A in K; auto] end.
    - inversion HE; subst; try (exfalso; match goal with H : ~ In _ effect_words |- _ => apply H; cbn; tauto end).
      split; [eapply once_unique; eauto; eapply DU; eauto|eapply once_flat; eauto].
    - inversion HE; subst; try (exfalso; match goal with H : ~ In _ effect_words |- _ => apply H; cbn; tauto end).
      split; [eapply once_unique; eauto; eapply DU; eauto|eapply once_flat; eauto].
    - inversion HE as [|? ? ? ? NW'| |w' h' n' m' os' x' q' D0' WI' FT' DN' AM' ON'| | | |]; subst; try (exfalso; apply NW'; apply in_or_app; now right);
        try (exfalso; cbn in WI; intuition discriminate).
      assert (Ew : w = "assign").
      { destruct WI as [<-|WI]; auto. exfalso. apply N, counts_head. cbn in *. intuition. }
      subst w.
      split; [|eapply once_flat; [eassumption|]; cbn; auto].
      assert (n' = n /\ m' = m) as [-> ->].
      { unfold function_term in *. destruct FT as [->|[-> ->]], FT' as [X|[X Y]]; try discriminate X;
        injection X; intros; subst; auto. }
      eapply once_unique; [|exact ON|exact ON']. cbn. split; auto. split; auto.
      split; [eapply denotes_unique; eauto|eapply amount_unique; eauto].
    - inversion HE as [|? ? ? ? NW'| |? ? ? ? ? ? ? ? WI'|m' Ds' D0' F1' T1'| | |]; subst; try (exfalso; apply NW'; cbn; tauto);
        try (exfalso; cbn in WI'; intuition discriminate).
      inversion IH as [|? ? _ IHl]; subst.
      assert (NI' : Forall (fun x => forall D E, does I e x D -> does I e x E -> same_changes D E /\ flat D) m).
      { rewrite Forall_forall in *. intros x X. apply IHl; auto. apply NI. now right. }
      pose proof (Forall2_and _ _ _ _ _ NI' F1 F1') as F.
      split.
      + eapply together_unique; [|eassumption|eassumption]. clear - F. induction F as [|? ? ? ? [? _]]; constructor; auto.
      + eapply together_flat; [|eassumption]. clear - F. induction F as [|? ? ? ? [_ ?]]; constructor; auto.
    - inversion HE; subst; try (exfalso; match goal with H : ~ In _ effect_words |- _ => apply H; cbn; tauto end);
        try (exfalso; match goal with H : In _ assign_words |- _ => cbn in H; intuition discriminate end).
      inversion IH as [|? ? _ IH2]; subst. inversion IH2 as [|? ? _ IH3]; subst. inversion IH3 as [|? ? IHy _]; subst.
      match goal with A : does I e y ?E0, B : does I e y ?E1, P : only_if I _ ?E0 D, Q : only_if I _ ?E1 E |- _ =>
        destruct (IHy (NI y (or_intror (or_intror (or_introl eq_refl)))) e E0 E1 A B) as [S1 S2];
        split; [intros c k; rewrite (P c k), (Q c k), (S1 c k); reflexivity|
                intros c k K; apply P in K as [->|[_ K]]; [now left|now apply S2]] end.
    - inversion HE; subst; try (exfalso; match goal with H : ~ In _ effect_words |- _ => apply H; cbn; tauto end);
        try (exfalso; match goal with H : In _ assign_words |- _ => cbn in H; intuition discriminate end).
      inversion IH as [|? ? _ IH2]; subst. inversion IH2 as [|? ? _ IH3]; subst. inversion IH3 as [|? ? IHy _]; subst.
      pose proof (IHy (NI y (or_intror (or_intror (or_introl eq_refl))))) as U.
      match goal with P : everywhere I _ ?F1 D, Q : everywhere I _ ?F2 E |- _ =>
        split; [eapply (everywhere_unique _ F1 F2); [|exact P|exact Q]; intros e' b; eapply U; eauto
               |eapply (everywhere_flat _ F1); [|exact P]; intros e' b; eapply U; eauto] end.
    - exfalso. apply N. apply (counts_head "oneof"). cbn. auto.
  Qed.
End Outcomes.
