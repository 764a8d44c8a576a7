(** Another iteration order of the sets: equality and the conditions of C33 are kept. *)
From Coq Require Import String List Bool Arith ZArith Lia Permutation.
From Verif Require Import Py Names Reqs Logic Built Validation Core Lexer Parser.
From Verif Require Import Spec Spec_Core Spec_Parse Spec_Print Spec_Text Spec_Domain Spec_Orders.
From Verif Require Import Py_facts Logic_facts Names_facts Ops_facts Built_facts NF_facts Order_facts CoreEq_facts Core_facts TextExact_facts.
Import ListNotations.
Open Scope string_scope.
Open Scope list_scope.

(** ** lists *)
Lemma set_order_In {A} (R : A -> A -> Prop) l m y : set_order R l m -> In y m -> exists x, In x l /\ R x y.
Proof.
  intros (k & F & P) H. apply (Permutation_in y (Permutation_sym P)) in H. clear P.
  induction F as [|a b l k E F IH]; [contradiction|]. destruct H as [<-|H]; [exists a; cbn; auto|].
  destruct (IH H) as (x & Hx & Q). exists x. cbn. auto.
Qed.
Lemma set_order_In_l {A} (R : A -> A -> Prop) l m x : set_order R l m -> In x l -> exists y, In y m /\ R x y.
Proof.
  intros (k & F & P) H. assert (S : exists y, In y k /\ R x y).
  { clear P. induction F as [|a b l k E F IH]; [contradiction|]. destruct H as [<-|H]; [exists b; cbn; auto|].
    destruct (IH H) as (y & Hy & Q). exists y. cbn. auto. }
  destruct S as (y & Hy & Q). exists y. split; auto. eapply Permutation_in; eauto.
Qed.
Lemma set_order_eqb {A} (eqb : A -> A -> bool) (R : A -> A -> Prop) l m : is_equiv eqb ->
  (forall x y, In x l -> R x y -> eqb x y = true) -> set_order R l m -> set_eqb eqb l m = true.
Proof.
  intros E H S. apply (set_eqb_spec _ E). intros z. apply Bool.eq_iff_eq_true. rewrite !memb_In. split; intros (y & Hy & Q).
  - destruct (set_order_In_l _ _ _ _ S Hy) as (w & Hw & K). exists w. split; auto. eapply (eqv_trans _ E); eauto.
  - destruct (set_order_In _ _ _ _ S Hy) as (w & Hw & K). exists w. split; auto. eapply (eqv_trans _ E); eauto.
    rewrite (eqv_sym _ E). auto.
Qed.
Lemma set_order_NoDupE {A} (eqb : A -> A -> bool) (R : A -> A -> Prop) l m : is_equiv eqb ->
  (forall x y, In x l -> R x y -> eqb x y = true) -> set_order R l m -> NoDupE eqb l -> NoDupE eqb m.
Proof.
  intros E H (k & F & P) N. eapply (NoDupE_perm _ E); [exact P|]. clear P.
  induction F as [|a b l k Q F IH]; [constructor|]. inversion N as [|? ? M N']; subst. constructor; [|apply IH; auto; intros; apply H; cbn; auto].
  rewrite memb_false in *. intros y Hy. destruct (eqb b y) eqn:K; auto.
  assert (X : exists x, In x l /\ R x y).
  { clear - F Hy. induction F as [|a b l k E F IH]; [contradiction|]. destruct Hy as [<-|Hy]; [exists a; cbn; auto|].
    destruct (IH Hy) as (x & Hx & Q). exists x. cbn. auto. }
  destruct X as (x & Hx & Qx). rewrite <- (M x Hx). symmetry.
  eapply (eqv_trans _ E); [apply H; [now left|exact Q]|]. eapply (eqv_trans _ E); [exact K|]. rewrite (eqv_sym _ E). apply H; [now right|auto].
Qed.

(** ** equality *)
Lemma perm_set l m : Permutation l m -> forall x : string, In x l <-> In x m.
Proof. intros P x. split; apply Permutation_in; [auto|now symmetry]. Qed.
Lemma var_order_eqb v w : var_order v w -> var_eqb v w = true.
Proof. intros [N P]. unfold var_eqb. rewrite N, String.eqb_refl. cbn. apply set_eqb_string. now apply perm_set. Qed.
Lemma term_order_eqb t u : term_order t u -> term_eqb t u = true.
Proof. destruct t, u; cbn; try contradiction. - intros [-> _]. apply String.eqb_refl. - apply var_order_eqb. Qed.
Lemma terms_order_eqb ts us : Forall2 term_order ts us -> list_eqb term_eqb ts us = true.
Proof. induction 1; cbn; auto. rewrite (term_order_eqb _ _ H). auto. Qed.
Lemma vars_order_eqb vs ws : set_order var_order vs ws -> set_eqb var_eqb vs ws = true.
Proof. apply set_order_eqb; [apply var_eqb_equiv|]. intros. now apply var_order_eqb. Qed.
Lemma form_order_eqb f : forall g, form_order f g -> form_eqb f g = true.
Proof.
  induction f using form_ind'; intros g0 O; inversion O; subst; cbn [form_eqb].
  - rewrite String.eqb_refl. now apply terms_order_eqb.
  - now rewrite !term_order_eqb by auto.
  - rewrite String.eqb_refl. now apply terms_order_eqb.
  - apply (eqv_refl _ form_eqb_equiv (FNumVal v)).
  - assert (bfun_eqb k k = true) as -> by (destruct k; reflexivity). cbn.
    match goal with F : Forall2 form_order _ _ |- _ => clear - F H; induction F; cbn; auto; inversion H; subst end.
    rewrite H4 by auto. auto.
  - assert (bop_eqb k k = true) as -> by (destruct k; reflexivity). cbn.
    match goal with F : Forall2 form_order _ _ |- _ => clear - F H; induction F; cbn; auto; inversion H; subst end.
    rewrite H4 by auto. auto.
  - now apply IHf.
  - assert (quant_eqb q q = true) as -> by (destruct q; reflexivity). cbn. rewrite vars_order_eqb by auto. now apply IHf.
  - rewrite IHf1, IHf2; auto.
  - rewrite vars_order_eqb by auto. now apply IHf.
Qed.

(** ** built *)
Lemma nff_sound_built f : nff f -> sound f -> built f.
Proof.
  induction f using form_ind'; cbn [nff sound]; intros N S.
  - destruct S as [S1 S2]. eapply B_pred. apply mk_pred_iff. eauto.
  - eapply B_eq. apply mk_eq_iff. eauto.
  - eapply (B_numfun n ts). unfold mk_numfun. assert (parse_function n = Ok n) as -> by now apply parse_function_Ok. reflexivity.
  - constructor.
  - destruct N as [N1 N2]. rewrite fold_and_Forall in N1, S. change (FBinFun k ops) with (raw_node (CFun k) ops).
    rewrite <- mk_op_id by auto. apply (B_binfun k). rewrite Forall_forall in *. auto.
  - destruct N as [N1 N2]. rewrite fold_and_Forall in N1, S. change (FBin k ops) with (raw_node (CBin k) ops).
    rewrite <- mk_op_id by auto. apply (B_bin k). rewrite Forall_forall in *. auto.
  - apply (B_not f). auto.
  - destruct N as [N1 N2]. rewrite <- (dedup_id _ var_eqb_equiv _ N1). apply (B_quant q vs f). auto.
  - destruct N, S. apply (B_when f1 f2); auto.
  - destruct N as [N1 N2]. rewrite <- (dedup_id _ var_eqb_equiv _ N1). apply (B_forall vs f). auto.
Qed.
Lemma order_ops_if c f g : form_order f g -> ops_if c f = None -> ops_if c g = None.
Proof.
  intros O. inversion O; subst; destruct c; cbn; auto.
  - destruct (bfun_eqb _ _); auto. discriminate.
  - destruct (bop_eqb _ _); auto. discriminate.
Qed.
Lemma order_nfn c l m : Forall2 form_order l m -> nfn c l -> nfn c m.
Proof.
  intros F. unfold nfn.
  assert (A : Forall (fun g => ops_if c g = None) l -> Forall (fun g => ops_if c g = None) m).
  { clear - F. induction F; auto. intros K. inversion K; subst. constructor; auto. eapply order_ops_if; eauto. }
  assert (B : NoDupE form_eqb l -> NoDupE form_eqb m).
  { apply (set_order_NoDupE _ form_order); [apply form_eqb_equiv|intros; now apply form_order_eqb|]. exists m. split; auto. }
  pose proof (Forall2_length _ _ _ F) as L. rewrite <- L. destruct (metaclass c) as [[]|]; tauto.
Qed.
Lemma order_nff f : forall g, form_order f g -> nff f -> nff g.
Proof.
  assert (V : forall vs ws, set_order var_order vs ws -> NoDupE var_eqb vs -> NoDupE var_eqb ws).
  { intros vs ws. apply set_order_NoDupE; [apply var_eqb_equiv|intros; now apply var_order_eqb]. }
  assert (X : forall ops m, Forall (fun f => forall g, form_order f g -> nff f -> nff g) ops -> Forall2 form_order ops m -> Forall nff ops -> Forall nff m).
  { intros ops m H F. induction F; auto. intros N. inversion N; inversion H; subst. constructor; auto. }
  induction f using form_ind'; intros g0 O; inversion O; subst; cbn [nff]; auto.
  - rewrite !fold_and_Forall. intros [N1 N2]. split; [now apply (X ops)|eapply order_nfn; eauto].
  - rewrite !fold_and_Forall. intros [N1 N2]. split; [now apply (X ops)|eapply order_nfn; eauto].
  - intros [N1 N2]. split; eauto.
  - intros [N1 N2]. split; eauto.
  - intros [N1 N2]. split; eauto.
Qed.
Lemma term_order_name t u : term_order t u -> t_name t = t_name u.
Proof. destruct t, u; cbn; try contradiction; [intros [-> _]|intros [-> _]]; auto. Qed.
Lemma term_order_tags t u : term_order t u -> forall g, In g (t_tags t) <-> In g (t_tags u).
Proof. destruct t, u; cbn; try contradiction; [intros [_ ->]; tauto|intros [_ P]; now apply perm_set]. Qed.
Lemma F2_In_r {A B} (R : A -> B -> Prop) l m y : Forall2 R l m -> In y m -> exists x, In x l /\ R x y.
Proof. induction 1 as [|a b l m H F IH]; [contradiction|]. intros [<-|K]; [exists a; cbn; auto|]. destruct (IH K) as (x & ? & ?). exists x. cbn. auto. Qed.
Lemma order_consistent ts us : Forall2 term_order ts us -> name_consistent ts -> name_consistent us.
Proof.
  intros F N t u Ht Hu E g. destruct (F2_In_r _ _ _ _ F Ht) as (t' & Ht' & Q), (F2_In_r _ _ _ _ F Hu) as (u' & Hu' & Q').
  rewrite <- (term_order_tags _ _ Q), <- (term_order_tags _ _ Q'). apply N; auto.
  now rewrite (term_order_name _ _ Q), (term_order_name _ _ Q').
Qed.
Lemma order_sound f : forall g, form_order f g -> sound f -> sound g.
Proof.
  induction f using form_ind'; intros g0 O; inversion O; subst; cbn [sound]; auto.
  - intros [A B]. split; auto. eapply order_consistent; eauto.
  - apply order_consistent. repeat constructor; auto.
  - rewrite !fold_and_Forall. match goal with F : Forall2 form_order _ _ |- _ => clear - F H; induction F; auto end.
    intros N. inversion N; inversion H; subst. constructor; auto.
  - rewrite !fold_and_Forall. match goal with F : Forall2 form_order _ _ |- _ => clear - F H; induction F; auto end.
    intros N. inversion N; inversion H; subst. constructor; auto.
  - intros [A B]. split; auto.
Qed.
Lemma order_built f g : form_order f g -> built f -> built g.
Proof.
  intros O B. apply nff_sound_built; [eapply order_nff|eapply order_sound]; eauto using built_nff, built_sound.
Qed.

(** ** the conditions of Spec_Text.v *)
Lemma perm_one l m : Permutation l m -> (length (l : list string) <= 1)%nat -> (length m <= 1)%nat.
Proof. intros P. now rewrite (Permutation_length P). Qed.
Lemma perm_nil (l m : list string) : Permutation l m -> (l = [] <-> m = []).
Proof. intros P. split; intros ->; [now apply Permutation_nil in P|symmetry in P; now apply Permutation_nil in P]. Qed.
Lemma order_legal v w : var_order v w -> legal_var v -> legal_var w.
Proof.
  intros [N P] (A & B & C). split; [now rewrite <- N|]. split; [|now apply (Permutation_NoDup P)].
  rewrite Forall_forall in *. intros g Hg. apply B. now apply (Permutation_in g (Permutation_sym P)).
Qed.
Lemma order_repeats vs ws : (forall w, In w ws -> exists v, In v vs /\ var_order v w) -> repeats_same vs -> repeats_same ws.
Proof.
  intros S R v w Hv Hw E g. destruct (S v Hv) as (v' & Hv' & N & P), (S w Hw) as (w' & Hw' & N' & P').
  rewrite <- (perm_set _ _ P), <- (perm_set _ _ P'). apply R; auto. congruence.
Qed.
Lemma order_block vs ws : set_order var_order vs ws -> unmixed vs -> block vs -> block ws.
Proof.
  intros S U (A & B & _ & D). assert (X : forall w, In w ws -> exists v, In v vs /\ var_order v w) by (intros; eapply set_order_In; eauto).
  rewrite Forall_forall in A, B. split; [|split; [|split]].
  - apply Forall_forall. intros w Hw. destruct (X w Hw) as (v & Hv & O). eapply order_legal; eauto.
  - apply Forall_forall. intros w Hw. destruct (X w Hw) as (v & Hv & N & P). eapply perm_one; [exact P|]. now apply B.
  - destruct U as [U|U].
    + exists [], ws. split; auto. split; [constructor|]. apply Forall_forall. intros w Hw. destruct (X w Hw) as (v & Hv & N & P).
      apply (perm_nil _ _ P). now apply U.
    + exists ws, []. split; [now rewrite app_nil_r|]. split; [|constructor]. apply Forall_forall. intros w Hw. destruct (X w Hw) as (v & Hv & N & P).
      intros Q. apply (U v Hv). now apply (perm_nil _ _ P).
  - eapply order_repeats; eauto.
Qed.
Lemma order_block_list vs ws : Forall2 var_order vs ws -> block vs -> block ws.
Proof.
  intros F (A & B & C & D). assert (X : forall w, In w ws -> exists v, In v vs /\ var_order v w) by (intros; eapply F2_In_r; eauto).
  rewrite Forall_forall in A, B. split; [|split; [|split]].
  - apply Forall_forall. intros w Hw. destruct (X w Hw) as (v & Hv & O). eapply order_legal; eauto.
  - apply Forall_forall. intros w Hw. destruct (X w Hw) as (v & Hv & N & P). eapply perm_one; [exact P|]. now apply B.
  - destruct C as (a & b & -> & Ca & Cb). apply Forall2_app_inv_l in F as (a' & b' & Fa & Fb & ->). exists a', b'. split; auto. split.
    + clear - Fa Ca. induction Fa as [|v w l m [N P] F IH]; constructor; inversion Ca; subst; auto. intros Q. apply H1. now apply (perm_nil _ _ P).
    + clear - Fb Cb. induction Fb as [|v w l m [N P] F IH]; constructor; inversion Cb; subst; auto. now apply (perm_nil _ _ P).
  - eapply order_repeats; eauto.
Qed.

Definition ctx_order (c c' : gctx) : Prop :=
  (forall r, In r (g_ext c) -> In r (g_ext c'))
  /\ (forall n, opt_order var_order (dict_get String.eqb n (g_params c)) (dict_get String.eqb n (g_params c')))
  /\ (forall n, g_const c n = g_const c' n).

Section Ctx.
  Variables (c c' : gctx) (O : ctx_order c c').
  Lemma order_fits t u : term_order t u -> fits c t -> fits c' u.
  Proof.
    destruct O as (_ & P & K). destruct t as [n g|v], u as [n' g'|w]; cbn; try contradiction.
    - intros [<- <-] [L E]. now rewrite <- K.
    - intros [N T] [L E]. rewrite <- N. split; auto. specialize (P (v_name v)).
      destruct (dict_get String.eqb (v_name v) (g_params c)) as [x|], (dict_get String.eqb (v_name v) (g_params c')) as [y|]; cbn in P; try contradiction.
      + destruct P as [N1 P1], E as [N2 E2]. split; [congruence|]. intros g. rewrite <- (perm_set _ _ P1), <- (perm_set _ _ T). apply E2.
      + apply (perm_nil _ _ T). exact E.
  Qed.
  Lemma order_all_fits ts us : Forall2 term_order ts us -> Forall (fits c) ts -> Forall (fits c') us.
  Proof. induction 1; auto. intros F. inversion F; subst. constructor; auto. eapply order_fits; eauto. Qed.
  Lemma order_expression f : forall g, form_order f g -> expression c f -> expression c' g.
  Proof.
    assert (X : forall ops m, Forall (fun f => forall g, form_order f g -> expression c f -> expression c' g) ops ->
      Forall2 form_order ops m -> Forall (expression c) ops -> Forall (expression c') m).
    { intros ops m H F. induction F; auto. intros K. inversion K; inversion H; subst. constructor; auto. }
    induction f using form_ind'; intros g0 Q E; inversion Q; inversion E; subst; try discriminate.
    - constructor; auto. eapply order_all_fits; eauto.
    - constructor; auto.
    - constructor; auto.
    - constructor; [|now apply (X ops)]. match goal with F : Forall2 form_order _ _ |- _ => now rewrite <- (Forall2_length _ _ _ F) end.
    - constructor; [|now apply (X ops)]. match goal with F : Forall2 form_order _ _ |- _ => now rewrite <- (Forall2_length _ _ _ F) end.
    - match goal with F : Forall2 form_order _ _ |- _ => inversion F as [|? ? ? ? Q1 F1]; subst; inversion F1 as [|? ? ? ? Q2 F2]; subst; inversion F2; subst end.
      inversion H as [|? ? Ha Hl]; subst. inversion Hl as [|? ? Hb _]; subst. constructor; auto.
    - match goal with F : Forall2 form_order _ _ |- _ => inversion F as [|? ? ? ? Q1 F1]; subst; inversion F1; subst end.
      inversion H as [|? ? Ha Hl]; subst. constructor; auto.
  Qed.
  Lemma order_atom f g : form_order f g -> atom_form c f -> atom_form c' g.
  Proof.
    intros Q A. inversion Q; subst; inversion A; subst.
    - constructor; auto; [eapply order_all_fits|eapply order_consistent]; eauto.
    - constructor; [now apply O|eapply order_fits; eauto|eapply order_fits; eauto|].
      match goal with N : name_consistent _ |- _ => revert N; apply order_consistent end. repeat constructor; auto.
  Qed.
  Lemma order_allowed rs : allowed c rs -> allowed c' rs.
  Proof. intros (r & A & B). exists r. split; auto. now apply O. Qed.
  Lemma order_condition f : forall g, form_order f g -> never_mixed f -> condition c f -> condition c' g.
  Proof.
    assert (X : forall ops m, Forall (fun f => forall g, form_order f g -> never_mixed f -> condition c f -> condition c' g) ops ->
      Forall2 form_order ops m -> Forall never_mixed ops -> Forall (condition c) ops -> Forall (condition c') m).
    { intros ops m H F. induction F; auto. intros N K. inversion N; inversion K; inversion H; subst. constructor; auto. }
    induction f using form_ind'; intros g0 Q M K; inversion K; subst;
      try match goal with A : atom_form c _ |- _ => apply C_atom; revert A; now apply order_atom end;
      inversion Q; subst; cbn [never_mixed] in M; rewrite ?fold_and_Forall in M; auto using order_allowed.
    - match goal with F : Forall2 form_order _ _ |- _ => inversion F as [|? ? ? ? Q1 F1]; subst; inversion F1 as [|? ? ? ? Q2 F2]; subst; inversion F2; subst end.
      apply C_compare; auto; eapply order_expression; eauto.
    - apply C_and. now apply (X ops).
    - apply C_or; auto using order_allowed. now apply (X ops).
    - match goal with F : Forall2 form_order _ _ |- _ => pose proof F as F0; inversion F as [|? ? ? ? Q1 F1]; subst; inversion F1 as [|? ? ? ? Q2 F2]; subst; inversion F2; subst end.
      assert (Y : Forall (condition c') [y; y0]) by (apply (X [a; b]); auto). inversion Y as [|? ? Y1 Y2]; subst. inversion Y2; subst.
      apply C_imply; auto using order_allowed.
    - apply C_not. now apply IHf.
    - destruct M as [M1 M2]. apply C_exists; auto using order_allowed. eapply order_block; eauto.
    - destruct M as [M1 M2]. apply C_forall; auto using order_allowed. eapply order_block; eauto.
  Qed.
  Lemma order_primitive f g : form_order f g -> primitive c f -> primitive c' g.
  Proof.
    intros Q P. inversion P; subst.
    - apply P_atom. eapply order_atom; eauto.
    - inversion Q; subst. apply P_not. eapply order_atom; eauto.
    - inversion Q; subst. match goal with F : Forall2 form_order _ _ |- _ => inversion F as [|? ? ? ? Q1 F1]; subst; inversion F1 as [|? ? ? ? Q2 F2]; subst; inversion F2; subst end.
      inversion Q1; subst. apply P_assign; auto; [eapply order_all_fits|eapply order_expression]; eauto.
  Qed.
  Lemma order_consequence f g : form_order f g -> consequence c f -> consequence c' g.
  Proof.
    assert (X : forall ops m, Forall2 form_order ops m -> Forall (primitive c) ops -> Forall (primitive c') m).
    { intros ops m F. induction F; auto. intros K. inversion K; subst. constructor; auto. eapply order_primitive; eauto. }
    intros Q P. inversion P; subst; [apply Q_prim; eapply order_primitive; eauto|].
    inversion Q; subst. apply Q_and. eapply X; eauto.
  Qed.
  Lemma order_effect f : forall g b, form_order f g -> never_mixed f -> effect_form c b f -> effect_form c' b g.
  Proof.
    assert (X : forall b ops m, Forall (fun f => forall g b, form_order f g -> never_mixed f -> effect_form c b f -> effect_form c' b g) ops ->
      Forall2 form_order ops m -> Forall never_mixed ops -> Forall (effect_form c b) ops -> Forall (effect_form c' b) m).
    { intros b ops m H F. induction F; auto. intros N K. inversion N; inversion K; inversion H; subst. constructor; auto. }
    induction f using form_ind'; intros g0 b Q M K; inversion K; subst;
      try (apply F_prim; eapply order_primitive; eassumption);
      inversion Q; subst; cbn [never_mixed] in M; rewrite ?fold_and_Forall in M.
    - apply F_and. now apply (X false ops).
    - apply F_oneof; [now apply O| |now apply (X true ops)]. intros ->. match goal with F : Forall2 form_order _ [] |- _ => inversion F; subst end. congruence.
    - destruct M as [M1 M2]. apply F_when; [eapply order_condition; eauto|eapply order_consequence; eauto].
    - destruct M as [M1 M2]. apply F_forall; [eapply order_block; eauto|auto].
  Qed.
End Ctx.
