(** Facts about [<] between conditions, effects and numbers (C68). *)
From Coq Require Import String List Bool ZArith QArith.
From Verif Require Import Py Py_facts Logic Logic_facts Order_facts Strict_facts Compare Spec_Compare.
Import ListNotations.

(** ** numbers *)
Definition Qlt_bool (x y : Q) : bool := negb (Qle_bool y x).
Lemma Qlt_bool_iff x y : Qlt_bool x y = true <-> (x < y)%Q.
Proof.
  unfold Qlt_bool. rewrite negb_true_iff. split.
  - intros H. apply Qnot_le_lt. intros L. apply Qle_bool_iff in L. congruence.
  - intros H. destruct (Qle_bool y x) eqn:E; auto. apply Qle_bool_iff in E.
    exfalso. eapply Qlt_not_le; eauto.
Qed.
Lemma Q_tot_order : tot_order Qeq_bool Qlt_bool (fun _ => True).
Proof.
  constructor.
  - apply Qeq_bool_equiv.
  - intros x y _ _ H. apply Qeq_bool_neq in H.
    destruct (Qlt_le_dec x y) as [L|L].
    + rewrite (proj2 (Qlt_bool_iff _ _) L). destruct (Qlt_bool y x) eqn:E; auto.
      apply Qlt_bool_iff in E. exfalso. eapply (Qlt_irrefl x), Qlt_trans; eauto.
    + apply Qle_lteq in L as [L|L]; [|exfalso; apply H; now symmetry].
      rewrite (proj2 (Qlt_bool_iff _ _) L). destruct (Qlt_bool x y) eqn:E; auto.
      apply Qlt_bool_iff in E. exfalso. eapply (Qlt_irrefl x), Qlt_trans; eauto.
  - intros x y _ _ H. apply Qeq_bool_iff in H. destruct (Qlt_bool x y) eqn:E; auto.
    apply Qlt_bool_iff in E. rewrite H in E. exfalso. eapply Qlt_irrefl; eauto.
  - intros x y z _ _ _ A B. apply Qlt_bool_iff in A, B. apply Qlt_bool_iff. eapply Qlt_trans; eauto.
Qed.

(** ** the two classes of numbers as one total order each *)
Lemma num_lt_cases v w :
  (exists x y, num_value v = Some x /\ num_value w = Some y /\ num_lt v w = Ok (Qlt_bool x y)
     /\ num_eqb v w = Qeq_bool x y) \/
  (exists s t, v = NStr s /\ w = NStr t /\ num_lt v w = Ok (str_lt s t)
     /\ num_eqb v w = String.eqb s t) \/
  (num_lt v w = Err TypeError /\ num_eqb v w = false).
Proof.
  destruct v as [z|m e|s], w as [z'|m' e'|s']; cbn [num_lt num_eqb num_value]; eauto 12.
Qed.

(** ** sets of variables *)
Lemma vars_sub vs ws : forallb (fun v => memb var_eqb v ws) vs = true <-> some_vars vs ws.
Proof. apply (subset_spec _ var_eqb_equiv). Qed.
Lemma vars_same vs ws : set_eqb var_eqb vs ws = true <-> same_vars vs ws.
Proof.
  unfold same_vars. rewrite (set_eqb_spec _ var_eqb_equiv). split; intros H x.
  - now rewrite H.
  - specialize (H x). destruct (memb var_eqb x vs), (memb var_eqb x ws); intuition.
Qed.
Lemma vars_same_not vs ws : set_eqb var_eqb vs ws = false <-> ~ same_vars vs ws.
Proof. rewrite <- vars_same. destruct (set_eqb var_eqb vs ws); intuition discriminate. Qed.
Lemma vars_lt_iff vs ws : vars_lt vs ws = true <-> some_vars vs ws /\ ~ same_vars vs ws.
Proof.
  unfold vars_lt. rewrite andb_true_iff, vars_sub, negb_true_iff, vars_same_not. tauto.
Qed.
Lemma vars_lt_false vs ws : ~ same_vars vs ws -> (vars_lt vs ws = false <-> ~ some_vars vs ws).
Proof.
  intros H. pose proof (vars_lt_iff vs ws) as E. destruct (vars_lt vs ws); intuition discriminate.
Qed.
Lemma same_some vs ws : same_vars vs ws <-> some_vars vs ws /\ some_vars ws vs.
Proof. unfold same_vars, some_vars. split; [split; intros; now apply H|]. intros [A B] v. split; auto. Qed.
Lemma same_sym vs ws : same_vars vs ws -> same_vars ws vs.
Proof. unfold same_vars. intros H v. now rewrite H. Qed.
Lemma some_trans a b c : some_vars a b -> some_vars b c -> some_vars a c.
Proof. unfold some_vars. auto. Qed.

(** ** when the comparison raises *)
Lemma lt_cases f : forall g, (exists b, form_lt f g = Ok b) \/ form_lt f g = Err TypeError.
Proof.
  induction f using form_ind'; intros g; destruct g; simpl; eauto.
  - unfold num_lt. destruct v, v0; simpl; eauto.
  - destruct (set_eqb var_eqb vs vs0); eauto. destruct (form_eqb f g); eauto.
  - destruct (form_eqb f1 g1); eauto. destruct (form_eqb f2 g2); eauto.
  - destruct (set_eqb var_eqb vs vs0); eauto. destruct (form_eqb f g); eauto.
Qed.

Lemma lt_ok f : forall g b, form_lt f g = Ok b -> comparable f g.
Proof.
  induction f using form_ind'; intros g b; destruct g; cbn [form_lt]; try discriminate.
  - constructor.
  - constructor.
  - destruct (num_lt_cases v v0) as [(x & y & A & B & C & _)|[(s & t & -> & -> & C & _)|(C & _)]];
      rewrite C; try discriminate; intros _; [eapply K_num; eauto|constructor].
  - destruct (set_eqb var_eqb vs vs0) eqn:E.
    + destruct (form_eqb f g) eqn:Q; intros H; [now apply K_quant_same|]. apply K_quant. eauto.
    + intros _. apply K_quant_vars. now apply vars_same_not.
  - destruct (form_eqb f1 g1) eqn:E.
    + destruct (form_eqb f2 g2) eqn:Q; intros H; [now apply K_when_same|]. apply K_when_eff; eauto.
    + intros H. apply K_when_cond; eauto.
  - destruct (set_eqb var_eqb vs vs0) eqn:E.
    + destruct (form_eqb f g) eqn:Q; intros H; [now apply K_forall_same|]. apply K_forall. eauto.
    + intros _. apply K_forall_vars. now apply vars_same_not.
Qed.
Lemma ok_lt f g : comparable f g -> exists b, form_lt f g = Ok b.
Proof.
  induction 1; cbn [form_lt]; eauto.
  - destruct (num_lt_cases v w) as [(x' & y' & A & B & C & _)|[(s & t & -> & -> & C & _)|(C & _)]]; eauto.
    exfalso. destruct v, w; cbn in *; congruence.
  - cbn. eauto.
  - apply vars_same_not in H. rewrite H. eauto.
  - rewrite H. destruct (set_eqb var_eqb vs ws); eauto.
  - destruct (set_eqb var_eqb vs ws); eauto. destruct (form_eqb c d); eauto.
  - rewrite H, H0. eauto.
  - now rewrite H.
  - rewrite H. destruct (form_eqb e k); eauto.
  - apply vars_same_not in H. rewrite H. eauto.
  - rewrite H. destruct (set_eqb var_eqb vs ws); eauto.
  - destruct (set_eqb var_eqb vs ws); eauto. destruct (form_eqb e k); eauto.
Qed.
Lemma comparable_sym f g : comparable f g -> comparable g f.
Proof.
  induction 1.
  - constructor.
  - constructor.
  - eapply K_num; eauto.
  - constructor.
  - apply K_quant_vars. intros A. apply H. now apply same_sym.
  - apply K_quant_same. now rewrite form_eqb_sym.
  - now apply K_quant.
  - apply K_when_same; now rewrite form_eqb_sym.
  - apply K_when_cond; auto. now rewrite form_eqb_sym.
  - apply K_when_eff; auto. now rewrite form_eqb_sym.
  - apply K_forall_vars. intros A. apply H. now apply same_sym.
  - apply K_forall_same. now rewrite form_eqb_sym.
  - now apply K_forall.
Qed.

(** ** atoms *)
Lemma atom_tri n ts m us : Forall (fun t => NoDup (t_tags t)) ts -> Forall (fun t => NoDup (t_tags t)) us ->
  (atom_lt n ts m us = true /\ atom_lt m us n ts = false /\ String.eqb n m && list_eqb term_eqb ts us = false) \/
  (atom_lt n ts m us = false /\ atom_lt m us n ts = true /\ String.eqb n m && list_eqb term_eqb ts us = false) \/
  (atom_lt n ts m us = false /\ atom_lt m us n ts = false /\ String.eqb n m && list_eqb term_eqb ts us = true).
Proof.
  intros A B. pose proof atom_strict as T.
  destruct (String.eqb n m && list_eqb term_eqb ts us) eqn:Q.
  - right. right. pose proof (to_irr _ _ _ T (n, ts) (m, us) (conj Logic.I A) (conj Logic.I B) Q) as C.
    assert (Q' : (fun p q : string * list term => String.eqb (fst p) (fst q) && list_eqb term_eqb (snd p) (snd q)) (m, us) (n, ts) = true).
    { rewrite (eqv_sym _ (to_eq _ _ _ T) (m,us) (n,ts)). exact Q. }
    pose proof (to_irr _ _ _ T (m, us) (n, ts) (conj Logic.I B) (conj Logic.I A) Q') as C'.
    simpl in C, C'. auto.
  - pose proof (to_tri _ _ _ T (n, ts) (m, us) (conj Logic.I A) (conj Logic.I B) Q) as C. simpl in C.
    rewrite C. destruct (atom_lt m us n ts); auto.
Qed.
Lemma atom_tr n ts m us o ws : Forall (fun t => NoDup (t_tags t)) ts -> Forall (fun t => NoDup (t_tags t)) us ->
  Forall (fun t => NoDup (t_tags t)) ws ->
  atom_lt n ts m us = true -> atom_lt m us o ws = true -> atom_lt n ts o ws = true.
Proof.
  intros A B C. exact (to_tr _ _ _ atom_strict (n, ts) (m, us) (o, ws) (conj Logic.I A) (conj Logic.I B) (conj Logic.I C)).
Qed.

Lemma atom_cong n ts n' ts' m us : Forall (fun t => NoDup (t_tags t)) ts -> Forall (fun t => NoDup (t_tags t)) ts' ->
  Forall (fun t => NoDup (t_tags t)) us -> String.eqb n n' && list_eqb term_eqb ts ts' = true ->
  atom_lt n ts m us = atom_lt n' ts' m us /\ atom_lt m us n ts = atom_lt m us n' ts'.
Proof.
  intros A B C Q. pose proof atom_strict as T.
  assert (Q' : (fun p q : string * list term => String.eqb (fst p) (fst q) && list_eqb term_eqb (snd p) (snd q)) (n', ts') (n, ts) = true).
  { rewrite (eqv_sym _ (to_eq _ _ _ T) (n', ts') (n,ts)). exact Q. }
  pose proof (to_lt_cong _ _ _ T (n, ts) (n', ts') (m, us) (conj Logic.I A) (conj Logic.I B) (conj Logic.I C) Q) as H1.
  pose proof (to_lt_cong _ _ _ T (n', ts') (n, ts) (m, us) (conj Logic.I B) (conj Logic.I A) (conj Logic.I C) Q') as H2.
  pose proof (to_lt_cong_r _ _ _ T (n, ts) (n', ts') (m, us) (conj Logic.I A) (conj Logic.I B) (conj Logic.I C) Q) as H3.
  pose proof (to_lt_cong_r _ _ _ T (n', ts') (n, ts) (m, us) (conj Logic.I B) (conj Logic.I A) (conj Logic.I C) Q') as H4.
  simpl in *. split.
  - destruct (atom_lt n ts m us), (atom_lt n' ts' m us); first [now auto|symmetry; now auto].
  - destruct (atom_lt m us n ts), (atom_lt m us n' ts'); first [now auto|symmetry; now auto].
Qed.

(** ** [<] cannot tell equal objects apart *)
Lemma num_cong v v' w : num_eqb v v' = true -> num_lt v w = num_lt v' w /\ num_lt w v = num_lt w v'.
Proof.
  pose proof Q_tot_order as T.
  assert (H : forall x y z, Qeq_bool x y = true -> Qlt_bool x z = Qlt_bool y z /\ Qlt_bool z x = Qlt_bool z y).
  { intros x y z Q.
    assert (Q' : Qeq_bool y x = true) by (rewrite (eqv_sym _ Qeq_bool_equiv); exact Q).
    pose proof (to_lt_cong _ _ _ T x y z Logic.I Logic.I Logic.I Q).
    pose proof (to_lt_cong _ _ _ T y x z Logic.I Logic.I Logic.I Q').
    pose proof (to_lt_cong_r _ _ _ T x y z Logic.I Logic.I Logic.I Q).
    pose proof (to_lt_cong_r _ _ _ T y x z Logic.I Logic.I Logic.I Q').
    split.
    - destruct (Qlt_bool x z), (Qlt_bool y z); first [now auto|symmetry; now auto].
    - destruct (Qlt_bool z x), (Qlt_bool z y); first [now auto|symmetry; now auto]. }
  unfold Qlt_bool in H.
  destruct v as [z|m e|s], v' as [z'|m' e'|s']; cbn [num_eqb num_value]; try discriminate; intros Q;
    try (destruct w as [z''|m'' e''|s'']; cbn [num_lt num_value]; auto;
         split; f_equal; first [now apply (proj1 (H _ _ _ Q))|now apply (proj2 (H _ _ _ Q))]).
  apply String.eqb_eq in Q. subst. auto.
Qed.
Lemma vars_lt_cong vs vs' ws : set_eqb var_eqb vs vs' = true ->
  vars_lt vs ws = vars_lt vs' ws /\ vars_lt ws vs = vars_lt ws vs'.
Proof.
  intros Q. apply vars_same in Q.
  assert (H : forall a b, (a = true <-> b = true) -> a = b) by (intros [] []; intuition congruence).
  unfold same_vars in Q. split; apply H; rewrite !vars_lt_iff; unfold some_vars, same_vars;
    (split; intros [A B]; (split; [intros v; specialize (Q v); specialize (A v); tauto|
      intros K; apply B; intros v; specialize (Q v); specialize (K v); tauto])).
Qed.
Lemma form_lt_cong f : forall f' g, types_are_sets f -> types_are_sets f' -> types_are_sets g ->
  form_eqb f f' = true -> form_lt f g = form_lt f' g /\ form_lt g f = form_lt g f'.
Proof.
  pose proof (set_eqb_equiv _ var_eqb_equiv) as EV. pose proof form_eqb_equiv as EF.
  induction f using form_ind'; intros f' gg; destruct f'; cbn [form_eqb types_are_sets]; try discriminate;
    intros A B C Q; destruct gg; cbn [form_lt]; auto; cbn [types_are_sets] in C.
  - destruct (atom_cong _ _ _ _ n1 ts1 A B C Q) as [-> ->]. auto.
  - destruct (atom_cong _ _ _ _ n1 ts1 A B C Q) as [-> ->]. auto.
  - now apply num_cong.
  - rewrite !andb_true_iff in Q. destruct Q as ((_ & Q1) & Q2).
    rewrite (equiv_cong _ EV _ _ Q1), <- (equiv_cong_r _ EV _ _ Q1), (equiv_cong _ EF _ _ Q2), <- (equiv_cong_r _ EF _ _ Q2).
    destruct (vars_lt_cong _ _ vs1 Q1) as [-> ->]. destruct (IHf _ _ A B C Q2) as [-> ->]. auto.
  - rewrite !andb_true_iff in Q. destruct Q as (Q1 & Q2). destruct A as [A1 A2], B as [B1 B2], C as [C1 C2].
    rewrite (equiv_cong _ EF _ _ Q1), <- (equiv_cong_r _ EF _ _ Q1), (equiv_cong _ EF _ _ Q2), <- (equiv_cong_r _ EF _ _ Q2).
    destruct (IHf1 _ _ A1 B1 C1 Q1) as [-> ->]. destruct (IHf2 _ _ A2 B2 C2 Q2) as [-> ->]. auto.
  - rewrite !andb_true_iff in Q. destruct Q as (Q1 & Q2).
    rewrite (equiv_cong _ EV _ _ Q1), <- (equiv_cong_r _ EV _ _ Q1), (equiv_cong _ EF _ _ Q2), <- (equiv_cong_r _ EF _ _ Q2).
    destruct (vars_lt_cong _ _ vs1 Q1) as [-> ->]. destruct (IHf _ _ A B C Q2) as [-> ->]. auto.
Qed.

(** ** exactly one of [<], [==], [>], unless unrelated *)
Definition one_of (f g : form) : Prop :=
  (form_lt f g = Ok true /\ form_eqb f g = false /\ form_lt g f = Ok false) \/
  (form_lt f g = Ok false /\ form_eqb f g = true /\ form_lt g f = Ok false) \/
  (form_lt f g = Ok false /\ form_eqb f g = false /\ form_lt g f = Ok true).
Definition neither (f g : form) : Prop :=
  form_lt f g = Ok false /\ form_eqb f g = false /\ form_lt g f = Ok false.

Lemma set_eqb_vars_sym vs ws : set_eqb var_eqb vs ws = set_eqb var_eqb ws vs.
Proof. apply (eqv_sym _ (set_eqb_equiv _ var_eqb_equiv)). Qed.

Lemma vars_tri vs ws : ~ same_vars vs ws ->
  (~ some_vars vs ws /\ ~ some_vars ws vs /\ vars_lt vs ws = false /\ vars_lt ws vs = false) \/
  (some_vars vs ws /\ vars_lt vs ws = true /\ vars_lt ws vs = false) \/
  (some_vars ws vs /\ vars_lt vs ws = false /\ vars_lt ws vs = true).
Proof.
  intros N. assert (N' : ~ same_vars ws vs) by (intros X; apply N; now apply same_sym).
  pose proof (vars_lt_iff vs ws) as I1. pose proof (vars_lt_iff ws vs) as I2.
  pose proof (same_some vs ws) as I3.
  assert (D : false = true <-> False) by (split; [discriminate|tauto]).
  destruct (vars_lt vs ws) eqn:L1, (vars_lt ws vs) eqn:L2; tauto.
Qed.
Lemma num_tri v w : comparable (FNumVal v) (FNumVal w) -> one_of (FNumVal v) (FNumVal w).
Proof.
  unfold one_of. cbn [form_lt form_eqb]. inversion 1; subst.
  - destruct (num_lt_cases v w) as [(x' & y' & V' & W' & -> & ->)|[(s & t & -> & -> & _)|(C & _)]];
      [|cbn in *; discriminate|exfalso; destruct v, w; cbn in *; congruence].
    destruct (num_lt_cases w v) as [(y2 & x2 & W2 & V2 & -> & _)|[(s & t & -> & -> & _)|(C & _)]];
      [|cbn in *; discriminate|exfalso; destruct v, w; cbn in *; congruence].
    assert (x2 = x') by congruence. assert (y2 = y') by congruence. subst x2 y2.
    pose proof Q_tot_order as T. destruct (Qeq_bool x' y') eqn:Q.
    + rewrite (to_irr _ _ _ T x' y' Logic.I Logic.I Q).
      rewrite (eqv_sym _ (to_eq _ _ _ T)) in Q. rewrite (to_irr _ _ _ T y' x' Logic.I Logic.I Q). tauto.
    + rewrite (to_tri _ _ _ T x' y' Logic.I Logic.I Q). destruct (Qlt_bool y' x'); simpl; tauto.
  - cbn [num_lt num_eqb].
    pose proof str_tot_order as T. destruct (String.eqb s t) eqn:Q.
    + rewrite (to_irr _ _ _ T s t Logic.I Logic.I Q).
      rewrite (eqv_sym _ (to_eq _ _ _ T)) in Q. rewrite (to_irr _ _ _ T t s Logic.I Logic.I Q). tauto.
    + rewrite (to_tri _ _ _ T s t Logic.I Logic.I Q). destruct (str_lt t s); simpl; tauto.
Qed.

Lemma form_tri f : forall g, types_are_sets f -> types_are_sets g -> comparable f g ->
  (unrelated f g /\ neither f g) \/ (~ unrelated f g /\ one_of f g).
Proof.
  induction f using form_ind'; intros g A B K; destruct g; try (now inversion K);
    cbn [types_are_sets] in A, B.
  - right. split; [now inversion 1|]. unfold one_of. cbn [form_lt form_eqb].
    destruct (atom_tri n ts n0 ts0 A B) as [(-> & -> & ->)|[(-> & -> & ->)|(-> & -> & ->)]]; tauto.
  - right. split; [now inversion 1|]. unfold one_of. cbn [form_lt form_eqb].
    destruct (atom_tri n ts n0 ts0 A B) as [(-> & -> & ->)|[(-> & -> & ->)|(-> & -> & ->)]]; tauto.
  - right. split; [now inversion 1|]. now apply num_tri.
  - apply ok_lt in K as (b & K). unfold neither, one_of in *. cbn [form_lt form_eqb] in *.
    rewrite (set_eqb_vars_sym vs0 vs). rewrite (form_eqb_sym g f).
    destruct (set_eqb var_eqb vs vs0) eqn:S0.
    + apply vars_same in S0. destruct (form_eqb f g) eqn:Q.
      * rewrite !andb_true_r. destruct (quant_eqb q q0) eqn:Eq.
        -- apply quant_eqb_eq in Eq. subst. right. split; [|tauto].
           inversion 1; subst; try congruence. apply same_some in S0. tauto.
        -- left. split; [|tauto]. apply U_quant_kind; auto. intros ->.
           rewrite (proj2 (quant_eqb_eq q0 q0) eq_refl) in Eq. discriminate.
      * rewrite !andb_false_r.
        destruct (IHf g A B (lt_ok _ _ _ K)) as [[U (L1 & _ & L2)]|[U O]].
        -- left. split; [|tauto]. apply U_quant; auto.
        -- right. split; [inversion 1; subst; try congruence; try tauto; apply same_some in S0; tauto|].
           rewrite Q in O. tauto.
    + rewrite andb_false_r. cbn [andb]. apply vars_same_not in S0.
      destruct (vars_tri _ _ S0) as [(V1 & V2 & -> & ->)|[(V1 & -> & ->)|(V1 & -> & ->)]].
      * left. split; [|tauto]. now apply U_quant_vars.
      * right. split; [inversion 1; subst; tauto|]. tauto.
      * right. split; [inversion 1; subst; tauto|]. tauto.
  - apply ok_lt in K as (b & K). unfold neither, one_of in *. cbn [form_lt form_eqb] in *.
    destruct A as [A1 A2], B as [B1 B2]. rewrite (form_eqb_sym g1 f1), (form_eqb_sym g2 f2).
    destruct (form_eqb f1 g1) eqn:Q1; [destruct (form_eqb f2 g2) eqn:Q2|]; cbn [andb].
    + right. split; [inversion 1; subst; congruence|]. tauto.
    + destruct (IHf2 g2 A2 B2 (lt_ok _ _ _ K)) as [[U (L1 & _ & L2)]|[U O]].
      * left. split; [|tauto]. now apply U_when_eff.
      * right. split; [inversion 1; subst; try congruence; tauto|]. rewrite Q2 in O. tauto.
    + destruct (IHf1 g1 A1 B1 (lt_ok _ _ _ K)) as [[U (L1 & _ & L2)]|[U O]].
      * left. split; [|tauto]. now apply U_when_cond.
      * right. split; [inversion 1; subst; try congruence; tauto|]. rewrite Q1 in O. tauto.
  - apply ok_lt in K as (b & K). unfold neither, one_of in *. cbn [form_lt form_eqb] in *.
    rewrite (set_eqb_vars_sym vs0 vs). rewrite (form_eqb_sym g f).
    destruct (set_eqb var_eqb vs vs0) eqn:S0; cbn [andb].
    + apply vars_same in S0. destruct (form_eqb f g) eqn:Q.
      * right. split; [|tauto]. inversion 1; subst; try congruence. apply same_some in S0. tauto.
      * destruct (IHf g A B (lt_ok _ _ _ K)) as [[U (L1 & _ & L2)]|[U O]].
        -- left. split; [|tauto]. apply U_forall; auto.
        -- right. split; [inversion 1; subst; try congruence; try tauto; apply same_some in S0; tauto|].
           rewrite Q in O. tauto.
    + apply vars_same_not in S0.
      destruct (vars_tri _ _ S0) as [(V1 & V2 & -> & ->)|[(V1 & -> & ->)|(V1 & -> & ->)]].
      * left. split; [|tauto]. now apply U_forall_vars.
      * right. split; [inversion 1; subst; tauto|]. tauto.
      * right. split; [inversion 1; subst; tauto|]. tauto.
Qed.

Lemma lt_true f g : types_are_sets f -> types_are_sets g -> form_lt f g = Ok true ->
  form_eqb f g = false /\ form_lt g f = Ok false.
Proof.
  intros A B L. destruct (form_tri f g A B (lt_ok _ _ _ L)) as [[_ (X & _)]|[_ O]]; [congruence|].
  destruct O as [O|[O|O]]; destruct O as (X & Y & Z); auto; congruence.
Qed.
Lemma lt_refl f b : form_lt f f = Ok b -> b = false.
Proof.
  destruct f; cbn [form_lt]; try discriminate.
  - unfold atom_lt. rewrite String.eqb_refl, seq_slt. intros [= <-].
    induction ts; simpl; auto. now rewrite (eqv_refl _ term_eqb_equiv).
  - unfold atom_lt. rewrite String.eqb_refl, seq_slt. intros [= <-].
    induction ts; simpl; auto. now rewrite (eqv_refl _ term_eqb_equiv).
  - destruct v; cbn [num_lt num_value]; intros [= <-].
    + change (Qlt_bool (inject_Z z) (inject_Z z) = false).
      apply (to_irr _ _ _ Q_tot_order _ _ Logic.I Logic.I). apply (eqv_refl _ Qeq_bool_equiv).
    + match goal with |- negb (Qle_bool ?x ?x) = false => change (Qlt_bool x x = false) end.
      apply (to_irr _ _ _ Q_tot_order _ _ Logic.I Logic.I). apply (eqv_refl _ Qeq_bool_equiv).
    + apply str_lt_irrefl.
  - rewrite (eqv_refl _ (set_eqb_equiv _ var_eqb_equiv)), form_eqb_refl. congruence.
  - rewrite !form_eqb_refl. congruence.
  - rewrite (eqv_refl _ (set_eqb_equiv _ var_eqb_equiv)), form_eqb_refl. congruence.
Qed.

Lemma num_tr u v w : num_lt u v = Ok true -> num_lt v w = Ok true -> num_lt u w = Ok true.
Proof.
  pose proof (to_tr _ _ _ Q_tot_order) as T. pose proof (to_tr _ _ _ str_tot_order) as T'.
  destruct u as [z|m e|s], v as [z'|m' e'|s'], w as [z''|m'' e''|s'']; cbn [num_lt num_value]; try discriminate;
    intros [= A] [= B]; f_equal;
    try (refine (T _ _ _ _ _ _ A B); exact Logic.I); refine (T' _ _ _ _ _ _ A B); exact Logic.I.
Qed.

Lemma form_lt_trans f : forall g h, types_are_sets f -> types_are_sets g -> types_are_sets h ->
  form_lt f g = Ok true -> form_lt g h = Ok true -> form_lt f h = Ok true.
Proof.
  pose proof (set_eqb_equiv _ var_eqb_equiv) as EV. pose proof form_eqb_equiv as EF.
  (* one place that is compared by [<] between formulas *)
  assert (P : forall c, (forall d e, types_are_sets c -> types_are_sets d -> types_are_sets e ->
      form_lt c d = Ok true -> form_lt d e = Ok true -> form_lt c e = Ok true) ->
      forall d e, types_are_sets c -> types_are_sets d -> types_are_sets e ->
      (form_eqb c d = false -> form_lt c d = Ok true) -> (form_eqb d e = false -> form_lt d e = Ok true) ->
      form_eqb c d = false \/ form_eqb d e = false ->
      form_eqb c e = false /\ form_lt c e = Ok true).
  { intros c IH d e A B C L1 L2 D.
    destruct (form_eqb c d) eqn:Q1, (form_eqb d e) eqn:Q2.
    - destruct D; discriminate.
    - rewrite (equiv_cong _ EF _ _ Q1). split; auto.
      rewrite (proj1 (form_lt_cong c d e A B C Q1)). auto.
    - rewrite <- (equiv_cong_r _ EF _ _ Q2). split; auto.
      rewrite <- (proj2 (form_lt_cong d e c B C A Q2)). auto.
    - pose proof (IH d e A B C (L1 eq_refl) (L2 eq_refl)) as L. split; auto.
      now apply lt_true. }
  (* sets of variables *)
  assert (W : forall a b c, (set_eqb var_eqb a b = false -> vars_lt a b = true) ->
     (set_eqb var_eqb b c = false -> vars_lt b c = true) ->
     set_eqb var_eqb a b = false \/ set_eqb var_eqb b c = false ->
     set_eqb var_eqb a c = false /\ vars_lt a c = true).
  { intros a b c L1 L2 D.
    destruct (set_eqb var_eqb a b) eqn:Q1, (set_eqb var_eqb b c) eqn:Q2.
    - destruct D; discriminate.
    - rewrite (equiv_cong _ EV _ _ Q1). split; auto. rewrite (proj1 (vars_lt_cong a b c Q1)). auto.
    - rewrite <- (equiv_cong_r _ EV _ _ Q2). split; auto. rewrite <- (proj2 (vars_lt_cong b c a Q2)). auto.
    - specialize (L1 eq_refl). specialize (L2 eq_refl). apply vars_lt_iff in L1 as (S1 & N1), L2 as (S2 & N2).
      assert (N : ~ same_vars a c).
      { intros X. apply N1. apply same_some. split; auto. apply same_some in X as (_ & X). eapply some_trans; eauto. }
      split; [now apply vars_same_not|]. apply vars_lt_iff. split; auto. eapply some_trans; eauto. }
  induction f using form_ind'; intros g h; destruct g, h; cbn [form_lt types_are_sets]; try discriminate.
  - intros A B C [= L1] [= L2]. f_equal. eapply (atom_tr n ts n0 ts0); eauto.
  - intros A B C [= L1] [= L2]. f_equal. eapply (atom_tr n ts n0 ts0); eauto.
  - intros _ _ _. apply num_tr.
  - intros A B C L1 L2. destruct (set_eqb var_eqb vs vs0) eqn:S1, (set_eqb var_eqb vs0 vs1) eqn:S2.
    + rewrite (eqv_trans _ EV _ _ _ S1 S2).
      destruct (P f IHf g h A B C) as [-> ->]; auto.
      * intros Q. now rewrite Q in L1.
      * intros Q. now rewrite Q in L2.
      * destruct (form_eqb f g); auto; discriminate.
    + inversion L2. destruct (W vs vs0 vs1) as [-> ->]; auto; congruence.
    + inversion L1. destruct (W vs vs0 vs1) as [-> ->]; auto; congruence.
    + inversion L1. inversion L2. destruct (W vs vs0 vs1) as [-> ->]; auto.
  - intros (A1 & A2) (B1 & B2) (C1 & C2) L1 L2.
    destruct (form_eqb f1 g1) eqn:S1, (form_eqb g1 h1) eqn:S2.
    + rewrite (eqv_trans _ EF _ _ _ S1 S2).
      destruct (P f2 IHf2 g2 h2 A2 B2 C2) as [-> ->]; auto.
      * intros Q. now rewrite Q in L1.
      * intros Q. now rewrite Q in L2.
      * destruct (form_eqb f2 g2); auto; discriminate.
    + destruct (P f1 IHf1 g1 h1 A1 B1 C1) as [-> ->]; auto; congruence.
    + destruct (P f1 IHf1 g1 h1 A1 B1 C1) as [-> ->]; auto; congruence.
    + destruct (P f1 IHf1 g1 h1 A1 B1 C1) as [-> ->]; auto.
  - intros A B C L1 L2. destruct (set_eqb var_eqb vs vs0) eqn:S1, (set_eqb var_eqb vs0 vs1) eqn:S2.
    + rewrite (eqv_trans _ EV _ _ _ S1 S2).
      destruct (P f IHf g h A B C) as [-> ->]; auto.
      * intros Q. now rewrite Q in L1.
      * intros Q. now rewrite Q in L2.
      * destruct (form_eqb f g); auto; discriminate.
    + inversion L2. destruct (W vs vs0 vs1) as [-> ->]; auto; congruence.
    + inversion L1. destruct (W vs vs0 vs1) as [-> ->]; auto; congruence.
    + inversion L1. inversion L2. destruct (W vs vs0 vs1) as [-> ->]; auto.
Qed.
