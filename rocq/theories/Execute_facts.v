(** Equal domains, problems and plans are executed alike. *)
From Coq Require Import String List Bool QArith.
From Verif Require Import Py Names Reqs Logic Validation Core Sem Spec Spec_Core Spec_Effect Spec_Execute.
From Verif Require Import Py_facts Logic_facts Names_facts Ops_facts Effect_facts Order_facts CoreEq_facts Equal_facts.
Import ListNotations.
Open Scope string_scope.
Open Scope list_scope.
Close Scope Q_scope.

Lemma set_In {A} (eqb : A -> A -> bool) l m x : is_equiv eqb -> set_eqb eqb l m = true -> In x l ->
  exists y, In y m /\ eqb x y = true.
Proof.
  intros Q E H. apply (set_eqb_spec _ Q) with (x := x) in E. rewrite (In_memb _ Q _ _ H) in E.
  symmetry in E. now apply memb_In in E.
Qed.
Lemma set_sym {A} (eqb : A -> A -> bool) l m : is_equiv eqb -> set_eqb eqb l m = true -> set_eqb eqb m l = true.
Proof. intros Q E. now rewrite (eqv_sym _ (set_eqb_equiv _ Q)). Qed.

Lemma list_term_den I e ts us : list_eqb term_eqb ts us = true -> map (den I e) ts = map (den I e) us.
Proof.
  intros H. apply list_eqb_Forall2 in H. induction H as [|t u ts us E H IH]; cbn; auto.
  rewrite IH. f_equal. now apply den_eq.
Qed.
Lemma list_term_In ts us u : list_eqb term_eqb ts us = true -> In u us -> exists t, In t ts /\ term_eqb t u = true.
Proof.
  intros H. apply list_eqb_Forall2 in H. induction H as [|t u' ts us E H IH]; cbn; [contradiction|].
  intros [<-|J]; [eauto|]. destruct (IH J) as (x & Hx & Q). eauto.
Qed.
Lemma const_terms_eq cs us : list_eqb term_eqb (map const_term cs) us = true ->
  exists cs', us = map const_term cs' /\ list_eqb const_eqb cs cs' = true.
Proof.
  revert us. induction cs as [|[n g] cs IH]; intros [|u us] H; cbn in H; try discriminate.
  - now exists [].
  - apply andb_true_iff in H as [E H]. destruct u as [m h|]; [|discriminate]. apply IH in H as (cs' & -> & Q).
    exists ((m, h) :: cs'). cbn. split; auto. unfold const_eqb at 1. cbn. now rewrite E.
Qed.
Lemma const_objects I cs cs' : list_eqb const_eqb cs cs' = true ->
  map (fun c => i_const I (fst c)) cs = map (fun c => i_const I (fst c)) cs'.
Proof.
  intros H. apply list_eqb_Forall2 in H. induction H as [|c c' cs cs' E H IH]; cbn; auto.
  rewrite IH. f_equal. f_equal. now apply String.eqb_eq.
Qed.

Lemma closed_equal ds ds' I P : set_eqb derived_eqb ds ds' = true -> closed ds I P -> closed ds' I P.
Proof.
  intros E [B C]. split; auto. intros r e Hr F H.
  destruct (set_In _ _ _ _ derived_eqb_equiv (set_sym _ _ _ derived_eqb_equiv E) Hr) as (r' & Hr' & Q).
  unfold derived_eqb in Q. apply andb_true_iff in Q as [Q Q3]. cbn in Q. apply andb_true_iff in Q as [Q1 Q2].
  apply String.eqb_eq in Q1. rewrite Q1, (list_term_den _ _ _ _ Q2). apply C; auto.
  - intros v Hv. assert (S : exists t, In t (dp_terms r) /\ term_eqb t (TVar v) = true) by (eapply list_term_In; eauto).
    destruct S as ([n g|w] & Hw & E2); [discriminate|]. cbn in E2. pose proof (F w Hw) as X.
    apply (fits_eq I w v) in X; auto. apply andb_true_iff in E2 as [E2 _]. apply String.eqb_eq in E2. now rewrite <- E2.
  - exact (proj1 (holds_eq (with_facts I P) _ _ _ Q3) H).
Qed.
Lemma completed_equal ds ds' I J : set_eqb derived_eqb ds ds' = true -> completed ds I J -> completed ds' I J.
Proof.
  intros E (P & -> & H). exists P. split; auto. intros n os. rewrite H.
  split; intros K R C; apply K; eapply closed_equal; eauto. now apply set_sym; [apply derived_eqb_equiv|].
Qed.

Lemma condition_equal J e o o' : option_eqb form_eqb o o' = true -> condition J e o -> condition J e o'.
Proof. destruct o, o'; cbn; try discriminate; auto. intros E. exact (proj1 (holds_eq J _ _ e E)). Qed.
Lemma effect_equal J e o o' D : option_eqb form_eqb o o' = true -> effect J e o D -> effect J e o' D.
Proof. destruct o, o'; cbn; try discriminate; auto. intros E. exact (proj1 (outcome_eq J _ _ e D E)). Qed.
Lemma gives_equal J e ts us cs cs' : list_eqb term_eqb ts us = true -> list_eqb const_eqb cs cs' = true ->
  gives J e ts cs -> gives J e us cs'.
Proof.
  intros E C H. apply list_eqb_Forall2 in E, C. revert us cs' E C.
  induction H as [|t c ts cs (v & -> & G) H IH]; intros us cs' E C; inversion E as [|x y xs ys E1 E2]; inversion C as [|? c' ? ? C1 C2]; subst; constructor.
  - destruct y as [|w]; [discriminate|]. exists w. split; auto. cbn in E1. apply andb_true_iff in E1 as [E1 _].
    apply String.eqb_eq in E1. apply String.eqb_eq in C1. now rewrite <- E1, G, C1.
  - now apply IH.
Qed.

Section Equal.
  Variable next : forall I J : interp, changes J -> interp -> Prop.

  Definition dsame (d d' : domain) : Prop :=
    set_eqb derived_eqb (d_derived d) (d_derived d') = true /\ set_eqb action_eqb (d_actions d) (d_actions d') = true.
  Definition psame (p q : problem) : Prop :=
    set_eqb form_eqb (p_init p) (p_init q) = true /\ form_eqb (p_goal p) (p_goal q) = true.
  Lemma domain_parts d d' : domain_eqb d d' = true -> dsame d d'.
  Proof. unfold domain_eqb. intros E. apply andb_true_iff in E as [E A]. now apply andb_true_iff in E as [_ D]. Qed.
  Lemma dsame_sym d d' : dsame d d' -> dsame d' d.
  Proof. intros [A B]. split; apply set_sym; auto using derived_eqb_equiv, action_eqb_equiv. Qed.
  Lemma psame_sym p q : psame p q -> psame q p.
  Proof. intros [A B]. split; [apply set_sym; auto using form_eqb_equiv|]. now rewrite (eqv_sym _ form_eqb_equiv). Qed.
  Lemma action_parts a b : action_eqb a b = true -> a_name a = a_name b /\ list_eqb term_eqb (a_params a) (a_params b) = true
    /\ option_eqb form_eqb (a_pre a) (a_pre b) = true /\ option_eqb form_eqb (a_eff a) (a_eff b) = true.
  Proof.
    unfold action_eqb. intros E. apply andb_true_iff in E as [E E4]. apply andb_true_iff in E as [E E3]. apply andb_true_iff in E as [E1 E2].
    apply String.eqb_eq in E1. auto.
  Qed.
  Lemma problem_parts p q : problem_eqb p q = true -> psame p q.
  Proof. unfold problem_eqb. intros E. apply andb_true_iff in E as [E _]. apply andb_true_iff in E as [E G]. now apply andb_true_iff in E as [_ F]. Qed.

  Lemma executes_equal d d' I st st' I' : dsame d d' -> fst st = fst st' ->
    list_eqb const_eqb (snd st) (snd st') = true -> executes next d I st I' -> executes next d' I st' I'.
  Proof.
    intros E N C (a & J & e & D & Ha & An & Cj & G & P & F & X). destruct E as [Ed Ea].
    destruct (set_In _ _ _ _ action_eqb_equiv Ea Ha) as (b & Hb & Q). apply action_parts in Q as (Q1 & Q2 & Q3 & Q4).
    exists b, J, e, D. split; auto. split; [congruence|]. split; [eapply completed_equal; eauto|].
    split; [eapply gives_equal; eauto|]. split; [eapply condition_equal; eauto|]. split; [eapply effect_equal; eauto|]. exact X.
  Qed.
  Lemma plan_parts pl pl' : plan_eqb pl pl' = true -> Forall2 (fun st st' => fst st = fst st' /\ list_eqb const_eqb (snd st) (snd st') = true) pl pl'.
  Proof.
    unfold plan_eqb. intros H. apply list_eqb_Forall2 in H. induction H as [|x y l m E H IH]; constructor; auto.
    apply andb_true_iff in E as [E1 E2]. apply String.eqb_eq in E1. auto.
  Qed.
  Lemma runs_equal d d' I pl pl' I' : dsame d d' -> plan_eqb pl pl' = true -> runs next d I pl I' -> runs next d' I pl' I'.
  Proof.
    intros E P. apply plan_parts in P. intros R. revert pl' P.
    induction R as [I|I st I1 pl I2 S R IH]; intros pl' P; inversion P as [|? st' ? pl1 [P1 P2] P3]; subst; [constructor|].
    econstructor; [eapply executes_equal; eauto|]. now apply IH.
  Qed.
  Lemma fitting_equal d d' I pl pl' : dsame d d' -> plan_eqb pl pl' = true -> fitting d I pl -> fitting d' I pl'.
  Proof.
    intros E P F st' Hst. apply plan_parts in P. destruct E as [_ Ea].
    assert (S : exists st, In st pl /\ fst st = fst st' /\ list_eqb const_eqb (snd st) (snd st') = true).
    { clear - P Hst. induction P as [|x y l m E H IH]; [contradiction|]. destruct Hst as [<-|K]; [exists x; cbn; tauto|].
      destruct (IH K) as (z & Hz & Q). exists z. cbn. tauto. }
    destruct S as (st & Hs & N & C). destruct (F st Hs) as (a & Ha & An & G).
    destruct (set_In _ _ _ _ action_eqb_equiv Ea Ha) as (b & Hb & Q). apply action_parts in Q as (Q1 & Q2 & _).
    exists b. split; auto. split; [congruence|]. apply list_eqb_Forall2 in Q2, C. revert Q2 C. generalize (a_params b) (snd st').
    induction G as [|t c ts cs (v & -> & H) G IH]; intros us cs' Q2 C; inversion Q2 as [|x y xs ys E1 E2]; inversion C as [|? c' ? ? C1 C2]; subst; constructor.
    - destruct y as [|w]; [discriminate|]. exists w. split; auto. apply String.eqb_eq in C1. rewrite <- C1. revert H. now apply fits_eq.
    - now apply IH.
  Qed.
  Lemma reached_equal d d' p p' I : dsame d d' -> psame p p' -> reached d p I -> reached d' p' I.
  Proof.
    intros E P (J & C & H). destruct E as [Ed _]. destruct P as [_ G]. exists J.
    split; [eapply completed_equal; eauto|]. intros e. eapply holds_eq; [|apply H]. now rewrite (eqv_sym _ form_eqb_equiv).
  Qed.
  Lemma starts_equal p p' I : psame p p' -> starts p I -> starts p' I.
  Proof.
    intros E [A B]. destruct E as [E _].
    assert (X : forall q q' n cs, set_eqb form_eqb q q' = true -> In (FPred n (map const_term cs)) q ->
      exists cs', In (FPred n (map const_term cs')) q' /\ list_eqb const_eqb cs cs' = true).
    { intros q q' n cs S H. destruct (set_In _ _ _ _ form_eqb_equiv S H) as (y & Hy & Q).
      destruct y as [m us| | | | | | | | |]; cbn in Q; try discriminate. apply andb_true_iff in Q as [Q1 Q2]. apply String.eqb_eq in Q1. subst m.
      apply const_terms_eq in Q2 as (cs' & -> & Q). eauto. }
    assert (E' := set_sym _ _ _ form_eqb_equiv E). split.
    - intros n os. rewrite A. split; intros (cs & H & ->); eapply X in H as (cs' & H & Q); eauto; exists cs'; split; auto; now apply const_objects.
    - intros n cs v H. destruct (set_In _ _ _ _ form_eqb_equiv E' H) as (y & Hy & Q).
      destruct y as [| | | |k ops| | | | |]; cbn in Q; try discriminate. apply andb_true_iff in Q as [Q1 Q2]. destruct k; try discriminate.
      destruct ops as [|x [|z [|]]]; cbn in Q2; try discriminate; [now rewrite andb_false_r in Q2| |now rewrite !andb_false_r in Q2].
      apply andb_true_iff in Q2 as [Q2 Q3]. rewrite andb_true_r in Q3.
      destruct x as [| |m us| | | | | | |]; try discriminate. apply andb_true_iff in Q2 as [Q2 Q4]. apply String.eqb_eq in Q2. subst m.
      destruct z as [| | |w| | | | | |]; try discriminate. apply const_terms_eq in Q4 as (cs' & -> & Q4).
      rewrite (const_objects _ _ _ Q4), (B _ _ _ Hy). symmetry.
      apply (value_eq I (FNumVal v) (FNumVal w) (fun _ => i_const I "")). exact Q3.
  Qed.
  Lemma solves_equal d d' p p' pl pl' I : dsame d d' -> psame p p' -> plan_eqb pl pl' = true ->
    solves next d p I pl -> solves next d' p' I pl'.
  Proof.
    intros D P L (S & F & I' & R & G). split; [eapply starts_equal; eauto|]. split; [eapply fitting_equal; eauto|].
    exists I'. split; [eapply runs_equal; eauto|eapply reached_equal; eauto].
  Qed.
End Equal.
