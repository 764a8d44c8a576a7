(** Lemmas about Logic.v: equality, hashing, flattening. *)
From Coq Require Import String Ascii List Bool NArith ZArith QArith Permutation Lia.
From Verif Require Import Py Names Logic Py_facts.
Import ListNotations.
Open Scope string_scope.
Open Scope list_scope.
Close Scope Q_scope.

(** induction principle with hypotheses for the operand lists *)
Section FormInd.
  Variable P : form -> Prop.
  Hypothesis HPred : forall n ts, P (FPred n ts).
  Hypothesis HEq : forall l r, P (FEq l r).
  Hypothesis HNumFun : forall n ts, P (FNumFun n ts).
  Hypothesis HNumVal : forall v, P (FNumVal v).
  Hypothesis HBinFun : forall k ops, Forall P ops -> P (FBinFun k ops).
  Hypothesis HBin : forall k ops, Forall P ops -> P (FBin k ops).
  Hypothesis HNot : forall f, P f -> P (FNot f).
  Hypothesis HQuant : forall q vs c, P c -> P (FQuant q vs c).
  Hypothesis HWhen : forall c e, P c -> P e -> P (FWhen c e).
  Hypothesis HForall : forall vs e, P e -> P (FForall vs e).
  Fixpoint form_ind' (f : form) : P f :=
    let go := fix go (l : list form) : Forall P l :=
      match l with
      | [] => Forall_nil P
      | x :: xs => Forall_cons x (form_ind' x) (go xs)
      end in
    match f with
    | FPred n ts => HPred n ts
    | FEq l r => HEq l r
    | FNumFun n ts => HNumFun n ts
    | FNumVal v => HNumVal v
    | FBinFun k ops => HBinFun k ops (go ops)
    | FBin k ops => HBin k ops (go ops)
    | FNot g => HNot g (form_ind' g)
    | FQuant q vs c => HQuant q vs c (form_ind' c)
    | FWhen c e => HWhen c e (form_ind' c) (form_ind' e)
    | FForall vs e => HForall vs e (form_ind' e)
    end.
End FormInd.

(** ** equality is an equivalence *)
Lemma var_eqb_equiv : is_equiv var_eqb.
Proof.
  pose proof (set_eqb_equiv _ string_eqb_equiv) as E.
  constructor; unfold var_eqb.
  - intros. now rewrite String.eqb_refl, (eqv_refl _ E).
  - intros. now rewrite String.eqb_sym, (eqv_sym _ E).
  - intros x y z H1 H2. apply andb_true_iff in H1 as [], H2 as [].
    apply andb_true_iff. split.
    + eapply (eqv_trans _ string_eqb_equiv); eauto.
    + eapply (eqv_trans _ E); eauto.
Qed.

Lemma term_eqb_equiv : is_equiv term_eqb.
Proof.
  constructor.
  - intros [n g|v]; simpl. apply String.eqb_refl. apply (eqv_refl _ var_eqb_equiv).
  - intros [n g|v] [m h|w]; simpl; auto. apply String.eqb_sym. apply (eqv_sym _ var_eqb_equiv).
  - intros [n g|v] [m h|w] [o i|u]; simpl; try discriminate.
    + apply (eqv_trans _ string_eqb_equiv).
    + apply (eqv_trans _ var_eqb_equiv).
Qed.

Lemma Qeq_bool_equiv : is_equiv Qeq_bool.
Proof.
  constructor.
  - intros. apply Qeq_bool_iff. reflexivity.
  - intros. destruct (Qeq_bool x y) eqn:A, (Qeq_bool y x) eqn:B; auto.
    + apply Qeq_bool_iff in A. symmetry in A. apply Qeq_bool_iff in A. congruence.
    + apply Qeq_bool_iff in B. symmetry in B. apply Qeq_bool_iff in B. congruence.
  - intros x y z H1 H2. apply Qeq_bool_iff in H1, H2. apply Qeq_bool_iff. now rewrite H1.
Qed.

Lemma num_eqb_equiv : is_equiv num_eqb.
Proof.
  constructor.
  - intros [z|m e|s]; cbn [num_eqb num_value]; try apply (eqv_refl _ Qeq_bool_equiv).
    apply String.eqb_refl.
  - intros [z|m e|s] [z'|m' e'|s']; cbn [num_eqb num_value]; auto;
      try apply (eqv_sym _ Qeq_bool_equiv). apply String.eqb_sym.
  - intros [z|m e|s] [z'|m' e'|s'] [z''|m'' e''|s'']; cbn [num_eqb num_value];
      try discriminate; try apply (eqv_trans _ Qeq_bool_equiv).
    apply (eqv_trans _ string_eqb_equiv).
Qed.

Lemma bfun_eqb_eq a b : bfun_eqb a b = true <-> a = b.
Proof. destruct a, b; simpl; split; congruence. Qed.
Lemma bop_eqb_eq a b : bop_eqb a b = true <-> a = b.
Proof. destruct a, b; simpl; split; congruence. Qed.
Lemma quant_eqb_eq a b : quant_eqb a b = true <-> a = b.
Proof. destruct a, b; simpl; split; congruence. Qed.
Lemma bfun_eqb_sym a b : bfun_eqb a b = bfun_eqb b a.
Proof. destruct a, b; reflexivity. Qed.
Lemma bop_eqb_sym a b : bop_eqb a b = bop_eqb b a.
Proof. destruct a, b; reflexivity. Qed.
Lemma quant_eqb_sym a b : quant_eqb a b = quant_eqb b a.
Proof. destruct a, b; reflexivity. Qed.

Ltac btrue :=
  repeat match goal with
  | H : (_ && _) = true |- _ => apply andb_true_iff in H as [? ?]
  | |- (_ && _) = true => apply andb_true_iff; split
  | H : bfun_eqb _ _ = true |- _ => apply bfun_eqb_eq in H; subst
  | H : bop_eqb _ _ = true |- _ => apply bop_eqb_eq in H; subst
  | H : quant_eqb _ _ = true |- _ => apply quant_eqb_eq in H; subst
  | |- bfun_eqb ?x ?x = true => now apply bfun_eqb_eq
  | |- bop_eqb ?x ?x = true => now apply bop_eqb_eq
  | |- quant_eqb ?x ?x = true => now apply quant_eqb_eq
  end.

Lemma form_eqb_refl f : form_eqb f f = true.
Proof.
  pose proof (list_eqb_equiv _ term_eqb_equiv) as ET.
  pose proof (set_eqb_equiv _ var_eqb_equiv) as EV.
  induction f using form_ind'; simpl; btrue;
    try apply String.eqb_refl; try apply (eqv_refl _ ET); try apply (eqv_refl _ term_eqb_equiv);
    try apply (eqv_refl _ EV); try apply (eqv_refl _ num_eqb_equiv); auto.
  - induction H; simpl; auto. rewrite H. auto.
  - induction H; simpl; auto. rewrite H. auto.
Qed.

Lemma form_eqb_sym f : forall g, form_eqb f g = form_eqb g f.
Proof.
  pose proof (list_eqb_equiv _ term_eqb_equiv) as ET.
  pose proof (set_eqb_equiv _ var_eqb_equiv) as EV.
  assert (L : forall ops, Forall (fun f => forall g, form_eqb f g = form_eqb g f) ops ->
              forall ops', list_eqb form_eqb ops ops' = list_eqb form_eqb ops' ops).
  { induction 1; destruct ops'; simpl; auto. now rewrite H, IHForall. }
  induction f using form_ind'; destruct g; simpl; auto.
  - now rewrite String.eqb_sym, (eqv_sym _ ET).
  - now rewrite (eqv_sym _ term_eqb_equiv l), (eqv_sym _ term_eqb_equiv r).
  - now rewrite String.eqb_sym, (eqv_sym _ ET).
  - apply (eqv_sym _ num_eqb_equiv).
  - now rewrite bfun_eqb_sym, (L _ H).
  - now rewrite bop_eqb_sym, (L _ H).
  - now rewrite quant_eqb_sym, (eqv_sym _ EV), IHf.
  - now rewrite IHf1, IHf2.
  - now rewrite (eqv_sym _ EV), IHf.
Qed.

Lemma form_eqb_trans f : forall g h, form_eqb f g = true -> form_eqb g h = true -> form_eqb f h = true.
Proof.
  pose proof (list_eqb_equiv _ term_eqb_equiv) as ET.
  pose proof (set_eqb_equiv _ var_eqb_equiv) as EV.
  assert (L : forall ops, Forall (fun f => forall g h, form_eqb f g = true ->
                                   form_eqb g h = true -> form_eqb f h = true) ops ->
              forall o1 o2, list_eqb form_eqb ops o1 = true -> list_eqb form_eqb o1 o2 = true ->
                            list_eqb form_eqb ops o2 = true).
  { induction 1; destruct o1, o2; simpl; auto; try discriminate. intros. btrue; eauto. }
  induction f using form_ind'; destruct g; simpl; try discriminate;
    destruct h; simpl; try discriminate; intros; btrue;
    try (eapply (eqv_trans _ string_eqb_equiv); eassumption);
    try (eapply (eqv_trans _ ET); eassumption);
    try (eapply (eqv_trans _ term_eqb_equiv); eassumption);
    try (eapply (eqv_trans _ num_eqb_equiv); eassumption);
    try (eapply (eqv_trans _ EV); eassumption);
    try (eapply L; eassumption); eauto.
Qed.

Lemma form_eqb_equiv : is_equiv form_eqb.
Proof. constructor; [apply form_eqb_refl|intros; apply form_eqb_sym|intros; eapply form_eqb_trans; eauto]. Qed.

Lemma derived_eqb_equiv : is_equiv derived_eqb.
Proof.
  constructor; unfold derived_eqb; intros.
  - now rewrite !form_eqb_refl.
  - now rewrite form_eqb_sym, (form_eqb_sym (dp_cond x)).
  - btrue; eapply form_eqb_trans; eauto.
Qed.
Lemma metric_eqb_equiv : is_equiv metric_eqb.
Proof.
  constructor; unfold metric_eqb; intros.
  - now rewrite form_eqb_refl, String.eqb_refl.
  - now rewrite form_eqb_sym, String.eqb_sym.
  - btrue. eapply form_eqb_trans; eauto. eapply (eqv_trans _ string_eqb_equiv); eauto.
Qed.

(** ** equal objects have equal hashes.
    [sets_ok]: every set of variables in the formula is a set, i.e. a list without two equal
    elements (what [mk_quant] and [mk_forall] build). *)
Fixpoint sets_ok (f : form) : Prop :=
  match f with
  | FBinFun _ ops | FBin _ ops => fold_right (fun g p => sets_ok g /\ p) True ops
  | FNot g => sets_ok g
  | FQuant _ vs c => NoDupE var_eqb vs /\ sets_ok c
  | FWhen c e => sets_ok c /\ sets_ok e
  | FForall vs e => NoDupE var_eqb vs /\ sets_ok e
  | _ => True
  end.

Lemma fold_and_Forall {A} (P : A -> Prop) l :
  fold_right (fun x p => P x /\ p) True l <-> Forall P l.
Proof.
  induction l; simpl; split; auto.
  - intros [H1 H2]. constructor; auto. now apply IHl.
  - inversion 1; subst. split; auto. now apply IHl.
Qed.

Section HashFacts.
  Variable H : hashes.
  Lemma var_hash_eq v w : var_eqb v w = true -> var_hash H v = var_hash H w.
  Proof. unfold var_eqb, var_hash. intros. btrue. apply String.eqb_eq in H0. now rewrite H0. Qed.
  Lemma term_hash_eq t u : term_eqb t u = true -> term_hash H t = term_hash H u.
  Proof.
    destruct t, u; simpl; try discriminate.
    - intros Q. apply String.eqb_eq in Q. now subst.
    - apply var_hash_eq.
  Qed.
  Lemma num_hash_eq a b : num_eqb a b = true -> num_hash H a = num_hash H b.
  Proof.
    destruct a, b; cbn [num_eqb num_value num_hash]; try discriminate;
      try (intros Q; apply Qeq_bool_iff in Q; now apply h_num_ok).
    intros Q. apply String.eqb_eq in Q. now subst.
  Qed.
  Lemma map_hash_eq {A} (eqb : A -> A -> bool) (h : A -> Z) :
    (forall x y, eqb x y = true -> h x = h y) ->
    forall l m, list_eqb eqb l m = true -> map h l = map h m.
  Proof.
    intros Hh. induction l; destruct m; simpl; try discriminate; auto.
    intros. btrue. f_equal; auto.
  Qed.
  Lemma set_hash_eq vs ws :
    NoDupE var_eqb vs -> NoDupE var_eqb ws -> set_eqb var_eqb vs ws = true ->
    h_set H (map (var_hash H) vs) = h_set H (map (var_hash H) ws).
  Proof.
    intros N1 N2 E. destruct (NoDupE_set_eqb_perm _ var_eqb_equiv _ _ N1 N2 E) as (m & P & F).
    rewrite (h_set_ok H (map (var_hash H) ws) (map (var_hash H) m)); [|now apply Permutation_map].
    f_equal. apply (map_hash_eq var_eqb); [apply var_hash_eq|now apply list_eqb_Forall2].
  Qed.

  Lemma form_hash_eq f : forall g, sets_ok f -> sets_ok g ->
    form_eqb f g = true -> form_hash H f = form_hash H g.
  Proof.
    assert (L : forall ops, Forall (fun f => forall g, sets_ok f -> sets_ok g ->
                  form_eqb f g = true -> form_hash H f = form_hash H g) ops ->
                forall ops', Forall sets_ok ops -> Forall sets_ok ops' ->
                list_eqb form_eqb ops ops' = true -> map (form_hash H) ops = map (form_hash H) ops').
    { induction 1; destruct ops'; simpl; auto; try discriminate.
      intros F1 F2 E. inversion F1; inversion F2; subst. btrue. f_equal; auto. }
    induction f using form_ind'; destruct g; simpl; try discriminate;
      rewrite ?fold_and_Forall; intros; btrue;
      repeat match goal with
      | E : String.eqb _ _ = true |- _ => apply String.eqb_eq in E; subst
      | E : term_eqb _ _ = true |- _ => apply term_hash_eq in E; rewrite E; clear E
      | E : list_eqb term_eqb _ _ = true |- _ =>
          rewrite ?(list_eqb_length _ _ _ E), (map_hash_eq _ _ term_hash_eq _ _ E); clear E
      end; auto.
    - now apply num_hash_eq.
    - assert (map (form_hash H) ops = map (form_hash H) ops0) as -> by (eapply L; eauto). auto.
    - assert (map (form_hash H) ops = map (form_hash H) ops0) as -> by (eapply L; eauto). auto.
    - now rewrite (IHf g).
    - rewrite (IHf g), (set_hash_eq vs vs0) by tauto. auto.
    - rewrite (IHf1 g1), (IHf2 g2) by tauto. auto.
    - rewrite (IHf g), (set_hash_eq vs vs0) by tauto. auto.
  Qed.
End HashFacts.
