(** Properties that pass from the terms of a condition or effect to the parsed formula. *)
From Coq Require Import String List Bool Arith Lia.
From Verif Require Import Py Names Reqs Logic Validation Core Lexer TypedList UpdateTags Parser.
From Verif Require Import Built Py_facts Logic_facts Names_facts.
Import ListNotations.
Open Scope string_scope.
Open Scope list_scope.

Section SexpInd.
  Variable P : sexp -> Prop.
  Hypothesis HA : forall t, P (SAtom t).
  Hypothesis HL : forall l, Forall P l -> P (SList l).
  Fixpoint sexp_ind' (s : sexp) : P s :=
    match s with
    | SAtom t => HA t
    | SList l => HL l ((fix go (l : list sexp) : Forall P l :=
        match l with [] => Forall_nil P | x :: xs => Forall_cons x (sexp_ind' x) (go xs) end) l)
    end.
End SexpInd.

Lemma mapR_Forall {A B} (f : A -> res B) (P : A -> Prop) (Q : B -> Prop) l l' :
  mapR f l = Ok l' -> Forall P l -> (forall x y, P x -> f x = Ok y -> Q y) -> Forall Q l'.
Proof.
  intros M F H. apply mapR_Ok in M. revert F. induction M; intros F; constructor; inversion F; subst.
  - eapply H; eauto.
  - auto.
Qed.
Lemma mapR_Forall' {A B} (f : A -> res B) (Q : B -> Prop) l l' :
  mapR f l = Ok l' -> Forall (fun x => forall y, f x = Ok y -> Q y) l -> Forall Q l'.
Proof. intros M F. eapply mapR_Forall; eauto. Qed.

(** a term produced in context [c] *)
Definition from_ctx (c : gctx) (t : term) : Prop :=
  (exists n, g_const c n = Ok t)
  \/ (exists n v, t = TVar v /\ dict_get String.eqb n (g_params c) = Some v)
  \/ (exists n v, t = TVar v /\ dict_get String.eqb n (g_params c) = None
                  /\ mk_var n (CList []) = Ok v).

Lemma constant_or_variable_from c p r t :
  resolve c p = Ok r -> constant_or_variable c r = Ok t -> from_ctx c t.
Proof.
  intros R C. destruct p as [n|n]; simpl in R.
  - apply bind_Ok in R as (k & K & R). inversion R; subst. simpl in C. inversion C; subst.
    left. eauto.
  - inversion R; subst. simpl in C. destruct (dict_get String.eqb n (g_params c)) eqn:D.
    + inversion C; subst. right. left. eauto.
    + apply bind_Ok in C as (v & V & C). inversion C; subst. right. right. eauto.
Qed.
Lemma terms_from c ps rs ts :
  mapR (resolve c) ps = Ok rs -> mapR (constant_or_variable c) rs = Ok ts -> Forall (from_ctx c) ts.
Proof.
  intros R C. apply mapR_Ok in R. apply mapR_Ok in C. revert ts C.
  induction R; intros ts C; inversion C; subst; constructor; auto.
  eapply constant_or_variable_from; eauto.
Qed.

Section Gen.
  Variable c : gctx.
  Variable P : form -> Prop.
  Hypothesis HPred : forall n ts f, Forall (from_ctx c) ts -> mk_pred n ts = Ok f -> P f.
  Hypothesis HEq : forall l r f, from_ctx c l -> from_ctx c r -> mk_eq l r = Ok f -> P f.
  Hypothesis HNumFun : forall n ts f, Forall (from_ctx c) ts -> mk_numfun n ts = Ok f -> P f.
  Hypothesis HNumVal : forall v, P (FNumVal v).
  Hypothesis HBinFun : forall k ops, Forall P ops -> P (mk_binfun k ops).
  Hypothesis HBin : forall k ops, Forall P ops -> P (mk_bin k ops).
  Hypothesis HNot : forall f, P f -> P (mk_not f).
  Hypothesis HQuant : forall q s tl vs f, g_vars c s = Ok tl -> mk_vars tl = Ok vs -> P f ->
    P (mk_quant q vs f).
  Hypothesis HWhen : forall f g, P f -> P g -> P (mk_when f g).
  Hypothesis HForall : forall s tl vs f, g_vars c s = Ok tl -> mk_vars tl = Ok vs -> P f ->
    P (mk_forall vs f).

  Lemma atomic_pred_P n args f : atomic_pred c n args = Ok f -> P f.
  Proof.
    unfold atomic_pred. intros H. apply bind_Ok in H as (ps & _ & H).
    apply bind_Ok in H as (rs & R & H). apply bind_Ok in H as (ts & T & H).
    eapply HPred; [|exact H]. eapply terms_from; eauto.
  Qed.
  Lemma atomic_eq_P args f : atomic_eq c args = Ok f -> P f.
  Proof.
    unfold atomic_eq. destruct (terms args) as [[|a [|b [|]]]|]; try discriminate. intros H.
    apply bind_Ok in H as (ra & RA & H). apply bind_Ok in H as (rb & RB & H).
    apply bind_Ok in H as ([] & _ & H). apply bind_Ok in H as (l & L & H).
    apply bind_Ok in H as (r & R & H). eapply HEq; [| |exact H].
    - exact (constant_or_variable_from _ _ _ _ RA L).
    - exact (constant_or_variable_from _ _ _ _ RB R).
  Qed.
  Lemma atomic_formula_term_P s f : atomic_formula_term c s = Ok f -> P f.
  Proof.
    destruct s as [|[|[[]|] l]]; simpl; try discriminate.
    - apply atomic_pred_P.
    - destruct (String.eqb s "="); [apply atomic_eq_P|discriminate].
  Qed.
  Lemma f_head_P s f : f_head c s = Ok f -> P f.
  Proof.
    destruct s as [[]|[|[[]|] l]]; simpl; try discriminate; intros H.
    - eapply HNumFun; [|exact H]. constructor.
    - apply bind_Ok in H as (ps & _ & H).
      apply bind_Ok in H as (rs & R & H). apply bind_Ok in H as (ts & T & H).
      eapply HNumFun; [|exact H]. eapply terms_from; eauto.
  Qed.
  Lemma f_exp_P s : forall f, f_exp c s = Ok f -> P f.
  Proof.
    induction s as [t|l IH] using sexp_ind'; intros f.
    - destruct t; try (apply f_head_P). simpl. intros H. apply bind_Ok in H as (v & _ & H).
      inversion H; subst. auto.
    - destruct l as [|[[]|] args]; try (apply f_head_P). cbn [f_exp].
      destruct (arith_op s (length args)); [|discriminate]. intros H.
      apply bind_Ok in H as (ops & M & H). inversion H; subst. apply HBinFun.
      inversion IH; subst. eapply mapR_Forall'; eauto.
  Qed.
  Lemma gd_P s : forall f, gd c s = Ok f -> P f.
  Proof.
    induction s as [t|l IH] using sexp_ind'; intros f; [discriminate|].
    destruct l as [|[[]|] args]; try discriminate; inversion IH as [|? ? _ IHa]; subst; clear IH.
    - cbn [gd]. destruct (String.eqb s "or").
      { intros H. apply bind_Ok in H as (ops & M & H). apply bind_Ok in H as ([] & _ & H).
        inversion H; subst. apply HBin. eapply mapR_Forall'; eauto. }
      destruct (String.eqb s "not").
      { destruct args as [|x [|]]; try discriminate. intros H. apply bind_Ok in H as (g & G & H).
        inversion H; subst. inversion IHa; subst. auto. }
      destruct (String.eqb s "and").
      { intros H. apply bind_Ok in H as (ops & M & H). inversion H; subst. apply HBin.
        eapply mapR_Forall'; eauto. }
      destruct (String.eqb s "imply").
      { destruct args as [|x [|y [|]]]; try discriminate. intros H.
        apply bind_Ok in H as (g & G & H). apply bind_Ok in H as (h & G' & H).
        apply bind_Ok in H as ([] & _ & H). inversion H; subst.
        inversion IHa as [|? ? Hx I2]; subst. inversion I2; subst.
        apply HBin. repeat constructor; auto. }
      destruct (String.eqb s "exists" || String.eqb s "forall").
      { destruct (if String.eqb s "exists" then _ else _) as [q r].
        destruct args as [|[|vs] [|x [|]]]; try discriminate. intros H.
        apply bind_Ok in H as (tl & TL & H). apply bind_Ok in H as (g & G & H).
        apply bind_Ok in H as ([] & _ & H). apply bind_Ok in H as (vars & V & H).
        inversion H; subst. inversion IHa as [|? ? _ I2]; subst. inversion I2; subst.
        eapply HQuant; eauto. }
      apply atomic_pred_P.
    - cbn [gd]. destruct (String.eqb s "=" && starts_term args); [apply atomic_eq_P|].
      destruct (comparison s) as [k|]; [|discriminate].
      destruct args as [|x [|y [|]]]; try discriminate. intros H.
      apply bind_Ok in H as (g & G & H). apply bind_Ok in H as (h & G' & H).
      inversion H; subst. apply HBinFun. repeat constructor; eauto using f_exp_P.
  Qed.
  Lemma emptyor_pregd_P s f : emptyor_pregd c s = Ok f -> P f.
  Proof.
    destruct s as [|[|x l]]; cbn [emptyor_pregd]; try apply gd_P.
    intros [= <-]. apply (HBin OOr). constructor.
  Qed.
  Lemma p_effect_P s f : p_effect c s = Ok f -> P f.
  Proof.
    destruct s as [|[|[[]|] args]]; try apply atomic_formula_term_P. unfold p_effect.
    destruct (String.eqb s "not").
    - destruct args as [|x [|]]; try discriminate. intros H. apply bind_Ok in H as (g & G & H).
      inversion H; subst. apply HNot. eapply atomic_formula_term_P; eauto.
    - destruct (assign_op s).
      + destruct args as [|h [|e [|]]]; try discriminate. intros H.
        apply bind_Ok in H as (g & G & H). apply bind_Ok in H as (g' & G' & H).
        inversion H; subst. apply HBinFun. repeat constructor; eauto using f_exp_P, f_head_P.
      + apply atomic_formula_term_P.
  Qed.
  Lemma cond_effect_P s f : cond_effect c s = Ok f -> P f.
  Proof.
    destruct s as [|[|[[]|] args]]; try apply p_effect_P. unfold cond_effect.
    destruct (String.eqb s "and"); [|apply p_effect_P].
    intros H. apply bind_Ok in H as (ops & M & H). inversion H; subst. apply HBin.
    eapply mapR_Forall'; eauto. apply Forall_forall. intros x _ y. apply p_effect_P.
  Qed.
  Lemma effect_P s : forall top f, effect c top s = Ok f -> P f.
  Proof.
    induction s as [t|l IH] using sexp_ind'; intros top f; [apply p_effect_P|].
    destruct l as [|[[]|] args]; try (apply p_effect_P).
    inversion IH as [|? ? _ IHa]; subst; clear IH. cbn [effect].
    destruct (top && String.eqb s "and").
    { intros H. apply bind_Ok in H as (ops & M & H). inversion H; subst. apply HBin.
      eapply mapR_Forall'; eauto. eapply Forall_impl; [|exact IHa]. simpl. eauto. }
    destruct (String.eqb s "forall").
    { destruct args as [|[|vs] [|x [|]]]; try discriminate. intros H.
      apply bind_Ok in H as (tl & TL & H). apply bind_Ok in H as (g & G & H).
      apply bind_Ok in H as (vars & V & H).
      inversion H; subst. inversion IHa as [|? ? _ I2]; subst. inversion I2; subst.
      eapply HForall; eauto. }
    destruct (String.eqb s "when").
    { destruct args as [|x [|y [|]]]; try discriminate. intros H.
      apply bind_Ok in H as (g & G & H). apply bind_Ok in H as (h & G' & H).
      inversion H; subst. apply HWhen; [eapply gd_P; eauto|eapply cond_effect_P; eauto]. }
    destruct (String.eqb s "oneof").
    { destruct args as [|x args]; try discriminate. intros H.
      apply bind_Ok in H as (ops & M & H). apply bind_Ok in H as ([] & _ & H).
      inversion H; subst. apply HBin.
      eapply mapR_Forall'; eauto. eapply Forall_impl; [|exact IHa]. simpl. eauto. }
    apply p_effect_P.
  Qed.
  Lemma emptyor_effect_P s f : emptyor_effect c s = Ok f -> P f.
  Proof.
    destruct s as [|[|x l]]; cbn [emptyor_effect]; try apply effect_P.
    intros [= <-]. apply (HBin OOr). constructor.
  Qed.
End Gen.

(** parsed formulas are built by the constructors *)
Lemma gd_built c s f : gd c s = Ok f -> built f.
Proof. apply gd_P; intros; try (econstructor; eauto; fail). Qed.
Lemma emptyor_pregd_built c s f : emptyor_pregd c s = Ok f -> built f.
Proof. apply emptyor_pregd_P; intros; try (econstructor; eauto; fail). Qed.
Lemma emptyor_effect_built c s f : emptyor_effect c s = Ok f -> built f.
Proof. apply emptyor_effect_P; intros; try (econstructor; eauto; fail). Qed.
