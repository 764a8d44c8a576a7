(** A parsed condition means what the text says. *)
From Coq Require Import String List Bool Arith Lia ZArith QArith.
From Verif Require Import Py Names Reqs Logic Validation Core Lexer TypedList UpdateTags Parser.
From Verif Require Import Sem Spec Spec_Parse Spec_Numbers Spec_Meaning.
From Verif Require Import Py_facts Logic_facts Ops_facts Built Built_facts Names_facts Inst_facts
  Parse_facts GD_facts Derived_facts Domain_facts Number_facts.
Import ListNotations.
Open Scope string_scope.
Open Scope list_scope.

(** ** terms *)
Definition term_text (t : term) : list sexp :=
  match t with TConst n _ => [name_sx n] | TVar v => var_sx (v_name v) end.
Record ctx_ok (c : gctx) : Prop := {
  ok_const : forall n t, g_const c n = Ok t -> exists g, t = TConst n g;
  ok_param : forall n v, dict_get String.eqb n (g_params c) = Some v -> v_name v = n
}.
Lemma term_resolved c p r t : ctx_ok c -> resolve c p = Ok r -> constant_or_variable c r = Ok t ->
  term_text t = match p with PConst n => [name_sx n] | PVar n => var_sx n end.
Proof.
  intros C R H. destruct p as [n|n]; cbn [resolve] in R.
  - apply bind_Ok in R as (k & K & R). injection R as <-. cbn in H. injection H as <-.
    apply (ok_const _ C) in K as (g & ->). reflexivity.
  - injection R as <-. cbn [constant_or_variable] in H.
    destruct (dict_get String.eqb n (g_params c)) as [v|] eqn:D.
    + injection H as <-. cbn. now rewrite (ok_param _ C _ _ D).
    + apply bind_Ok in H as (v & V & H). injection H as <-. apply mk_var_Ok in V as (-> & _). reflexivity.
Qed.
Lemma terms_shape l : forall ps, terms l = Some ps ->
  l = flat_map (fun p => match p with PConst n => [name_sx n] | PVar n => var_sx n end) ps.
Proof.
  assert (G : forall k l, length l <= k -> forall ps, terms l = Some ps ->
    l = flat_map (fun p => match p with PConst n => [name_sx n] | PVar n => var_sx n end) ps).
  { induction k; intros [|x r] L ps H; cbn in L; try lia; try (now injection H as <-).
    destruct x as [[]|]; try discriminate.
    - destruct r as [|[[]|] r']; try discriminate. cbn in H, L.
      destruct (terms r') as [ts|] eqn:T; [|discriminate]. injection H as <-. cbn.
      rewrite (IHk r' ltac:(lia) _ T) at 1. reflexivity.
    - cbn in H. destruct (terms r) as [ts|] eqn:T; [|discriminate]. injection H as <-. cbn.
      rewrite (IHk r ltac:(lia) _ T) at 1. reflexivity. }
  intros ps. eapply G. reflexivity.
Qed.
Lemma terms_text c l ps rs ts : ctx_ok c -> terms l = Some ps -> mapR (resolve c) ps = Ok rs ->
  mapR (constant_or_variable c) rs = Ok ts -> l = flat_map term_text ts.
Proof.
  intros C T R K. rewrite (terms_shape _ _ T). clear T. apply mapR_Ok in R. apply mapR_Ok in K.
  revert ts K. induction R; intros ts K; inversion K; subst; cbn [flat_map]; auto.
  rewrite (term_resolved _ _ _ _ C H H2). f_equal. auto.
Qed.
Lemma term_eqb_text t u : term_eqb t u = true -> term_text t = term_text u.
Proof.
  destruct t, u; cbn; try discriminate.
  - intros E. apply String.eqb_eq in E. now subst.
  - unfold var_eqb. rewrite andb_true_iff. intros [E _]. apply String.eqb_eq in E. now rewrite E.
Qed.
Lemma terms_eqb_text ts : forall us, list_eqb term_eqb ts us = true ->
  flat_map term_text ts = flat_map term_text us.
Proof.
  induction ts as [|t ts IH]; intros [|u us]; cbn; try discriminate; auto.
  rewrite andb_true_iff. intros [E F]. rewrite (term_eqb_text _ _ E). f_equal. auto.
Qed.

Section Denote.
  Variable I : interp.
  Lemma denotes_terms e ts : denotes I e (flat_map term_text ts) (map (den I e) ts).
  Proof.
    induction ts as [|t ts IH]; cbn [flat_map map]; [constructor|].
    destruct t as [n g|v]; cbn [term_text den].
    - now apply (dn_name I e).
    - now apply (dn_var I e).
  Qed.
  Lemma denotes_unique e l os : denotes I e l os -> forall os', denotes I e l os' -> os = os'.
  Proof.
    induction 1; intros os' D; inversion D; subst; auto; f_equal; auto.
  Qed.

  Lemma amounts_unique e l : Forall (fun x => forall p q, amount I e x p -> amount I e x q -> (p == q)%Q) l ->
    forall qs qs', Forall2 (amount I e) l qs -> Forall2 (amount I e) l qs' -> Forall2 Qeq qs qs'.
  Proof.
    induction 1; intros qs qs' A B; inversion A; subst; inversion B; subst; constructor; eauto.
  Qed.
  Lemma sums_eq qs qs' : Forall2 Qeq qs qs' -> (fold_right Qplus 0 qs == fold_right Qplus 0 qs')%Q.
  Proof. induction 1; cbn; [reflexivity|]. now rewrite H, IHForall2. Qed.
  Lemma products_eq qs qs' : Forall2 Qeq qs qs' -> (fold_right Qmult 1 qs == fold_right Qmult 1 qs')%Q.
  Proof. induction 1; cbn; [reflexivity|]. now rewrite H, IHForall2. Qed.
  Lemma amount_unique e x : forall p q, amount I e x p -> amount I e x q -> (p == q)%Q.
  Proof.
    induction x as [t|l IH] using sexp_ind'; intros p q A B.
    - inversion A; subst; inversion B; subst; try reflexivity. eapply numeral_unique; eauto.
    - inversion A; subst; inversion B; subst; try reflexivity.
      + match goal with H : denotes _ _ _ ?a, K : denotes _ _ _ ?b |- _ =>
          rewrite (denotes_unique _ _ _ H _ K) end. reflexivity.
      + inversion IH as [|? ? _ F]; subst. eapply sums_eq, amounts_unique; eauto.
      + inversion IH as [|? ? _ F]; subst. eapply products_eq, amounts_unique; eauto.
      + inversion IH as [|? ? _ F]; subst. inversion F as [|? ? F1 F']; subst.
        inversion F' as [|? ? F2 _]; subst. apply Qdiv_comp; eauto.
      + inversion IH as [|? ? _ F]; subst. inversion F as [|? ? F1 F']; subst.
        apply Qopp_comp; eauto.
  Qed.
End Denote.

(** ** numeric expressions as they are parsed *)
Inductive shape : sexp -> form -> Prop :=
| sh_num s v : num_tok s -> num_literal s = Ok v -> shape (SAtom (TNum s)) (FNumVal v)
| sh_fun n ts x : function_term n (flat_map term_text ts) x -> shape x (FNumFun n ts)
| sh_op o k l L : arith_op o (length l) = Some k -> Forall2 shape (operands o l) L ->
    shape (SList (SAtom (TOp o) :: l)) (FBinFun k L).

Lemma arith_op_kind o n k : arith_op o n = Some k ->
  (o = "+" /\ k = BPlus /\ 2 <= n) \/ (o = "*" /\ k = BTimes /\ 2 <= n)
  \/ (o = "/" /\ k = BDivide /\ n = 2) \/ (o = "-" /\ k = BMinus /\ n = 1).
Proof.
  unfold arith_op.
  destruct (String.eqb_spec o "+"); [destruct (Nat.leb_spec 2 n); [intros [= <-]; auto|discriminate]|].
  destruct (String.eqb_spec o "*"); [destruct (Nat.leb_spec 2 n); [intros [= <-]; auto|discriminate]|].
  destruct (String.eqb_spec o "/"); [destruct (Nat.eqb_spec n 2); [intros [= <-]; auto 6|discriminate]|].
  destruct (String.eqb_spec o "-"); [destruct (Nat.eqb_spec n 1); [intros [= <-]; auto 6|discriminate]|].
  discriminate.
Qed.
Lemma arith_op_inj o n k o' n' : arith_op o n = Some k -> arith_op o' n' = Some k -> o = o'.
Proof.
  intros A B. apply arith_op_kind in A, B.
  destruct A as [(-> & -> & _)|[(-> & -> & _)|[(-> & -> & _)|(-> & -> & _)]]];
  destruct B as [(-> & H & _)|[(-> & H & _)|[(-> & H & _)|(-> & H & _)]]]; congruence.
Qed.

Lemma num_eqb_numeral s v s' v' : num_tok s -> num_literal s = Ok v -> num_tok s' ->
  num_literal s' = Ok v' -> num_eqb v v' = true -> exists q, numeral s q /\ numeral s' q.
Proof.
  intros T L T' L' E. destruct (literal_numeral _ _ T L) as (q & r & N & V & Q).
  destruct (literal_numeral _ _ T' L') as (q' & r' & N' & V' & Q').
  assert (R : (r == r')%Q).
  { pose proof (num_q_eq _ _ E) as X. unfold num_q in X. now rewrite V, V' in X. }
  exists q. split; auto. assert (X : (q == q')%Q) by (now rewrite <- Q, <- Q', R).
  clear - N' X. destruct N' as [(z & N0 & H & Q)|(i & f & z & w & H & Ni & Nf & Hi & Hf & Q)].
  - left. exists z. split; auto. split; auto. now rewrite X.
  - right. exists i, f, z, w. repeat (split; [assumption|]). now rewrite X.
Qed.

Section ShapeInd.
  Variable P : sexp -> form -> Prop.
  Hypothesis H1 : forall s v, num_tok s -> num_literal s = Ok v -> P (SAtom (TNum s)) (FNumVal v).
  Hypothesis H2 : forall n ts x, function_term n (flat_map term_text ts) x -> P x (FNumFun n ts).
  Hypothesis H3 : forall o k l L, arith_op o (length l) = Some k ->
    Forall2 shape (operands o l) L -> Forall2 P (operands o l) L ->
    P (SList (SAtom (TOp o) :: l)) (FBinFun k L).
  Fixpoint shape_ind' x f (S : shape x f) : P x f :=
    match S with
    | sh_num s v a b => H1 s v a b
    | sh_fun n ts x a => H2 n ts x a
    | sh_op o k l L a F => H3 o k l L a F
        ((fix go xs ys (F : Forall2 shape xs ys) : Forall2 P xs ys :=
            match F with
            | Forall2_nil _ => Forall2_nil P
            | Forall2_cons _ _ s r => Forall2_cons _ _ (shape_ind' _ _ s) (go _ _ r)
            end) _ _ F)
    end.
End ShapeInd.

Lemma shape_same x f : shape x f -> forall y g, shape y g -> form_eqb f g = true -> same_expr x y.
Proof.
  intros S. induction S as [s v T L|n ts x Fx|o k l L A F IH] using shape_ind'; intros y g S' E;
    destruct S' as [s' v' T' L'|m us y Fy|o' k' l' L' A' F']; try discriminate.
  - cbn in E. destruct (num_eqb_numeral _ _ _ _ T L T' L' E) as (q & N & N'). econstructor; eauto.
  - cbn in E. apply andb_true_iff in E as [E1 E2]. apply String.eqb_eq in E1. subst m.
    rewrite <- (terms_eqb_text _ _ E2) in Fy. econstructor; eauto.
  - cbn in E. apply andb_true_iff in E as [E1 E2].
    assert (k = k') by (destruct k, k'; cbn in E1; congruence). subst k'.
    assert (o = o') by (eapply arith_op_inj; eauto). subst o'. constructor.
    clear - IH F' E2. revert L' F' E2. generalize (operands o l'). induction IH as [|x f xs L H IH IHL];
      intros ys L' F' E2; destruct F' as [|y g ys L' S F']; cbn in E2; try discriminate; constructor.
    + apply andb_true_iff in E2 as [E _]. eauto.
    + apply andb_true_iff in E2 as [_ E]. eauto.
Qed.

(** operands of the same kind are opened on both sides *)
Definition op_of (o : string) (k : bfun) : Prop :=
  (o = "+" /\ k = BPlus) \/ (o = "*" /\ k = BTimes) \/ (o = "/" /\ k = BDivide).
Lemma op_of_arith o k o' n k' : op_of o k -> arith_op o' n = Some k' -> (o = o' <-> k = k').
Proof.
  intros A B. apply arith_op_kind in B.
  destruct A as [(-> & ->)|[(-> & ->)|(-> & ->)]];
  destruct B as [(-> & -> & _)|[(-> & -> & _)|[(-> & -> & _)|(-> & -> & _)]]]; split; congruence.
Qed.
Definition not_op (o : string) (x : sexp) : Prop := forall l, x <> SList (SAtom (TOp o) :: l).
Lemma opened_not_op o x : Forall (not_op o) (opened o x).
Proof.
  induction x as [t|l IH] using sexp_ind'; [constructor; [intros l; discriminate|constructor]|].
  destruct l as [|y l]; [constructor; [intros l; discriminate|constructor]|].
  destruct y as [[]|]; try (constructor; [intros l'; discriminate|constructor]).
  cbn [opened]. destruct (String.eqb_spec o s) as [->|N].
  - apply Forall_flat_map. now inversion IH.
  - constructor; [intros l'; congruence|constructor].
Qed.
Lemma operands_not_op o l : o <> "-" -> Forall (not_op o) (operands o l).
Proof.
  intros N. unfold operands. destruct (String.eqb_spec o "-"); [contradiction|].
  apply Forall_flat_map. apply Forall_forall. intros x _. apply opened_not_op.
Qed.
Lemma shape_leaf o k x f : op_of o k -> shape x f -> not_op o x -> leaves (CFun k) f = [f].
Proof.
  intros K S N. destruct S as [| |o' k' l L A F]; auto. cbn [leaves].
  destruct (bfun_eqb k k') eqn:E; auto.
  assert (k = k') by (destruct k, k'; cbn in E; congruence). apply (op_of_arith _ _ _ _ _ K A) in H.
  subst. destruct (N l eq_refl).
Qed.
Lemma shapes_leaves o k xs fs : op_of o k -> Forall2 shape xs fs -> Forall (not_op o) xs ->
  flat_map (leaves (CFun k)) fs = fs.
Proof.
  intros K. induction 1; intros N; cbn [flat_map]; auto. inversion N; subst.
  rewrite (shape_leaf _ _ _ _ K H) by auto. rewrite IHForall2 by auto. reflexivity.
Qed.
Lemma shape_opened o k x f : op_of o k -> shape x f -> Forall2 shape (opened o x) (leaves (CFun k) f).
Proof.
  intros K S. assert (N0 : o <> "-") by (destruct K as [(-> & _)|[(-> & _)|(-> & _)]]; discriminate).
  destruct S as [s v T L|n ts x Fx|o' k' l L A F].
  - cbn [opened leaves]. constructor; [now apply sh_num|constructor].
  - assert (O : opened o x = [x]).
    { destruct Fx as [->|[-> _]]; reflexivity. }
    rewrite O. cbn [leaves]. constructor; [now apply sh_fun|constructor].
  - destruct (String.eqb_spec o o') as [<-|N].
    + assert (k = k') by (now apply (op_of_arith _ _ _ _ _ K A)). subst k'.
      cbn [opened leaves]. rewrite String.eqb_refl.
      assert (R : bfun_eqb k k = true) by (destruct k; reflexivity). rewrite R.
      rewrite (shapes_leaves _ _ _ _ K F) by now apply operands_not_op.
      unfold operands in F. destruct (String.eqb_spec o "-"); [contradiction|exact F].
    + cbn [opened leaves]. destruct (String.eqb_spec o o'); [contradiction|].
      destruct (bfun_eqb k k') eqn:E; [|constructor; [econstructor; eauto|constructor]].
      assert (X : k = k') by (destruct k, k'; cbn in E; congruence).
      apply (op_of_arith _ _ _ _ _ K A) in X. contradiction.
Qed.
Lemma shapes_opened o k xs fs : op_of o k -> Forall2 shape xs fs ->
  Forall2 shape (flat_map (opened o) xs) (flat_map (leaves (CFun k)) fs).
Proof.
  intros K. induction 1; cbn [flat_map]; [constructor|]. apply Forall2_app; auto.
  now apply shape_opened.
Qed.
Lemma distinct_NoDupE xs fs : Forall2 shape xs fs -> ForallOrdPairs (fun x y => ~ same_expr x y) xs ->
  NoDupE form_eqb fs.
Proof.
  induction 1 as [|x f xs fs S F IH]; intros D; constructor; inversion D as [|? ? D1 D2]; subst; auto.
  clear - S F D1. induction F as [|y g ys gs S' F IH]; [reflexivity|]. inversion D1; subst.
  cbn [memb existsb]. unfold memb in IH. rewrite (IH H2), orb_false_r. destruct (form_eqb f g) eqn:E; auto.
  destruct H1. eapply shape_same; eauto.
Qed.

Definition toks_ok (x : sexp) : Prop := forall n, number_in n x -> num_tok n.
Lemma toks_in x l : toks_ok (SList l) -> In x l -> toks_ok x.
Proof. intros T I n N. apply T. econstructor; eauto. Qed.
Lemma inside_in x l y : In x l -> inside y x -> inside y (SList l).
Proof. intros. econstructor; eauto. Qed.
Lemma repeated_in x l : nothing_repeated (SList l) -> In x l -> nothing_repeated x.
Proof. intros T I o m O N. apply T; auto. eapply inside_in; eauto. Qed.
Lemma below_in x l : no_quotient_below (SList l) -> In x l -> no_quotient_below x.
Proof. intros T I y m N. apply (T y m). eapply inside_in; eauto. Qed.
Lemma plain_in x l : plain_arithmetic (SList l) -> In x l -> plain_arithmetic x.
Proof. intros [A B] I. split; [eapply repeated_in|eapply below_in]; eauto. Qed.

Lemma f_head_shape c x f : ctx_ok c -> f_head c x = Ok f -> shape x f.
Proof.
  intros C. destruct x as [[]|[|[[]|] l]]; cbn [f_head]; try discriminate; intros H.
  - apply mk_numfun_Ok in H. subst. apply sh_fun. right. auto.
  - apply bind_Ok in H as (ps & T & H). apply of_opt_Ok' in T. apply bind_Ok in H as (rs & R & H).
    apply bind_Ok in H as (ts & K & H). apply mk_numfun_Ok in H. subst. apply sh_fun. left.
    now rewrite (terms_text _ _ _ _ _ C T R K).
Qed.
Lemma mapR_shapes c l ops : mapR (f_exp c) l = Ok ops ->
  Forall (fun x => forall f, f_exp c x = Ok f -> shape x f) l -> Forall2 shape l ops.
Proof.
  intros M F. apply mapR_Ok in M. revert F. induction M; intros F; constructor; inversion F; subst; auto.
Qed.
Lemma arith_op_of o n k : arith_op o n = Some k -> op_of o k \/ (o = "-" /\ k = BMinus /\ n = 1).
Proof.
  intros H. apply arith_op_kind in H as [(-> & -> & _)|[(-> & -> & _)|[(-> & -> & _)|H]]];
    unfold op_of; auto 6.
Qed.
Lemma arith_distinct o k l ops : op_of o k -> nothing_repeated (SList (SAtom (TOp o) :: l)) ->
  Forall2 shape l ops -> NoDupE form_eqb (flat_map (leaves (CFun k)) ops).
Proof.
  intros K R F. eapply distinct_NoDupE; [eapply shapes_opened; eauto|].
  assert (O : operands o l = flat_map (opened o) l).
  { unfold operands. destruct K as [(-> & _)|[(-> & _)|(-> & _)]]; reflexivity. }
  rewrite <- O. apply R; [|constructor].
  destruct K as [(-> & _)|[(-> & _)|(-> & _)]]; cbn; auto.
Qed.
Lemma mk_arith o k l ops : op_of o k -> nothing_repeated (SList (SAtom (TOp o) :: l)) ->
  2 <= length l -> Forall2 shape l ops ->
  mk_binfun k ops = FBinFun k (flat_map (leaves (CFun k)) ops).
Proof.
  intros K R N F. pose proof (arith_distinct _ _ _ _ K R F) as D.
  unfold mk_binfun, mk_op.
  assert (M : metaclass (CFun k) = Some false).
  { destruct K as [(_ & ->)|[(_ & ->)|(_ & ->)]]; reflexivity. }
  rewrite M, simplify_spec. cbv iota.
  apply Forall2_length in F. rewrite F in N.
  destruct ops as [|a [|b ops]]; cbn in N; try lia.
  rewrite (dedup_id _ form_eqb_equiv _ D).
  destruct (flat_map _ _) as [|u [|v w]]; reflexivity.
Qed.
Lemma f_exp_shape c x : ctx_ok c -> toks_ok x -> nothing_repeated x ->
  forall f, f_exp c x = Ok f -> shape x f.
Proof.
  intros C. induction x as [t|l IH] using sexp_ind'; intros T R f H.
  - destruct t; try (apply (f_head_shape c); assumption). cbn in H. apply bind_Ok in H as (v & L & H).
    injection H as <-. apply sh_num; auto. apply T. constructor.
  - destruct l as [|[[]|] l]; try (apply (f_head_shape c); assumption).
    cbn [f_exp] in H. destruct (arith_op s (length l)) as [k|] eqn:A; [|discriminate].
    apply bind_Ok in H as (ops & M & H). injection H as <-.
    assert (F : Forall2 shape l ops).
    { eapply mapR_shapes; eauto. inversion IH as [|? ? _ F]; subst. rewrite Forall_forall in *.
      intros x X g G. apply F; auto.
      - eapply toks_in; eauto. now right.
      - eapply repeated_in; eauto. now right. }
    pose proof (arith_op_kind _ _ _ A) as Kd.
    destruct (arith_op_of _ _ _ A) as [K|(-> & -> & N)].
    + rewrite (mk_arith _ _ _ _ K R); [| |exact F].
      2:{ destruct Kd as [(_ & _ & L)|[(_ & _ & L)|[(_ & _ & L)|(-> & _ & L)]]]; try lia.
          destruct K as [(K & _)|[(K & _)|(K & _)]]; discriminate. }
      econstructor; [exact A|]. unfold operands.
      assert (E : String.eqb s "-" = false) by (destruct K as [(-> & _)|[(-> & _)|(-> & _)]]; reflexivity).
      rewrite E. now apply shapes_opened.
    + destruct l as [|x [|]]; try discriminate. inversion F as [|? g ? ? G F']; subst. inversion F'; subst.
      econstructor; [exact A|]. unfold operands. cbn [String.eqb]. exact F.
Qed.

Lemma parsed_opened c o x : forall f, f_exp c x = Ok f -> opened o x <> [].
Proof.
  induction x as [t|l IH] using sexp_ind'; intros f H; [discriminate|].
  destruct l as [|[[]|] l]; try discriminate. cbn [opened]. cbn [f_exp] in H.
  destruct (String.eqb o s); [|discriminate].
  destruct (arith_op s (length l)) as [k|] eqn:A; [|discriminate].
  apply bind_Ok in H as (ops & M & H). apply arith_op_kind in A.
  destruct l as [|x l]; [cbn in A; destruct A as [(_ & _ & L)|[(_ & _ & L)|[(_ & _ & L)|(_ & _ & L)]]]; lia|].
  cbn in M. apply bind_Ok in M as (g & G & _). inversion IH as [|? ? _ F]; subst. inversion F as [|? ? F1 _]; subst.
  cbn [flat_map]. intros E. apply app_eq_nil in E as [E _]. eapply F1; eauto.
Qed.

Section Value.
  Variable I : interp.
  Lemma f_exp_value c x : ctx_ok c -> toks_ok x -> plain_arithmetic x ->
    forall f, f_exp c x = Ok f -> forall e, exists q, amount I e x q /\ (value I e f == q)%Q.
  Proof.
    intros C. induction x as [t|l IH] using sexp_ind'; intros T P f H e.
    - pose proof (f_exp_shape c _ C T (proj1 P) _ H) as S.
      inversion S as [s v N L|n ts x Fx|]; subst.
      + destruct (literal_numeral _ _ N L) as (q & r & Q & V & E). exists q. split; [now constructor|].
        cbn. unfold num_q. now rewrite V.
      + destruct Fx as [Fx|[Fx E]]; [discriminate|]. rewrite Fx.
        destruct ts as [|[] ts]; [|discriminate|discriminate].
        exists (i_func I n []). split; [constructor|reflexivity].
    - pose proof (f_exp_shape c _ C T (proj1 P) _ H) as S.
      inversion S as [|n ts x Fx|o k l0 L A F]; subst.
      + destruct Fx as [Fx|[Fx E]]; [|discriminate]. rewrite Fx.
        exists (i_func I n (map (den I e) ts)). split; [constructor; apply denotes_terms|reflexivity].
      + clear S. cbn [f_exp] in H. rewrite A in H. apply bind_Ok in H as (ops & M & H).
        assert (G : exists qs, Forall2 (amount I e) l0 qs /\ Forall2 (fun f q => (value I e f == q)%Q) ops qs).
        { inversion IH as [|? ? _ F']; subst. apply mapR_Ok in M. clear - F' T P M.
          assert (TP : forall x, In x l0 -> toks_ok x /\ plain_arithmetic x).
          { intros x X. split; [eapply toks_in|eapply plain_in]; eauto; now right. }
          clear T P. induction M as [|x f l fs E M IHM]; [exists []; split; constructor|].
          inversion F'; subst. destruct IHM as (qs & Q1 & Q2); auto. { intros; apply TP; now right. }
          destruct (TP x (or_introl eq_refl)) as [Tx Px].
          destruct (H1 Tx Px _ E e) as (q & Q & V). exists (q :: qs). split; constructor; auto. }
        assert (FS : Forall2 shape l0 ops).
        { eapply mapR_shapes; eauto. rewrite Forall_forall. intros x X g E.
          apply (f_exp_shape c); auto.
          - eapply toks_in; [exact T|now right].
          - eapply repeated_in; [apply P|now right]. }
        destruct G as (qs & Q1 & Q2). pose proof (arith_op_kind _ _ _ A) as Kd.
        destruct Kd as [(-> & -> & Ln)|[(-> & -> & Ln)|[(-> & -> & Ln)|(-> & -> & Ln)]]].
        * exists (fold_right Qplus 0 qs)%Q. split; [now constructor|]. injection H as <-.
          rewrite mk_plus_value by (eapply (arith_distinct "+"); eauto; [left; auto|apply P]).
          clear - Q2. induction Q2; cbn; [reflexivity|]. now rewrite H, IHQ2.
        * exists (fold_right Qmult 1 qs)%Q. split; [now constructor|]. injection H as <-.
          rewrite mk_times_value by (eapply (arith_distinct "*"); eauto; [right; left; auto|apply P]).
          clear - Q2. induction Q2; cbn; [reflexivity|]. now rewrite H, IHQ2.
        * destruct l0 as [|x [|y [|]]]; try discriminate.
          inversion FS as [|? f ? ? S1 FS']; subst. inversion FS' as [|? g ? ? S2 FS'']; subst.
          inversion FS''; subst. inversion Q2 as [|? p ? ? V1 Q2']; subst.
          inversion Q2' as [|? q ? ? V2 Q2'']; subst. inversion Q2''; subst.
          inversion Q1 as [|? ? ? ? A1 Q1']; subst. inversion Q1' as [|? ? ? ? A2 _]; subst.
          exists (p / q)%Q. split; [now constructor|].
          assert (K : op_of "/" BDivide) by (right; right; auto).
          assert (E0 : FBinFun BDivide L = mk_binfun BDivide [f; g]) by congruence.
          rewrite E0. clear E0 H.
          rewrite (mk_arith "/" BDivide [x; y] [f; g] K (proj1 P)); [|cbn; lia|exact FS].
          cbn [flat_map]. rewrite app_nil_r.
          assert (NY : not_op "/" y).
          { intros m ->. apply (proj2 P x m). constructor. }
          rewrite (shape_leaf "/" BDivide y g K S2 NY).
          assert (NE : leaves (CFun BDivide) f <> []).
          { intros E. pose proof (shape_opened "/" BDivide x f K S1) as O. rewrite E in O.
            inversion O as [O'|]. apply mapR_Ok in M. inversion M; subst.
            eapply (parsed_opened c "/" x); eauto. }
          assert (VL : value I e (FBinFun BDivide (leaves (CFun BDivide) f)) = value I e f
                       \/ leaves (CFun BDivide) f = [f]).
          { destruct S1 as [| |o' k' l' L' A' F']; [right; reflexivity|right; reflexivity|].
            cbn [leaves]. destruct (bfun_eqb BDivide k') eqn:E; [|now right]. left.
            assert (BDivide = k') by (destruct k'; cbn in E; congruence). subst k'.
            assert (o' = "/") by (symmetry; now apply (op_of_arith _ _ _ _ _ K A')). subst o'.
            rewrite (shapes_leaves _ _ _ _ K F'); [reflexivity|]. apply operands_not_op. discriminate. }
          destruct (leaves (CFun BDivide) f) as [|a L'] eqn:E; [contradiction|].
          cbn [app]. cbn [value]. rewrite fold_left_app. cbn [fold_left].
          destruct VL as [VL|VL].
          -- cbn [value] in VL. rewrite VL. now rewrite V1, V2.
          -- injection VL as -> ->. cbn [fold_left]. now rewrite V1, V2.
        * destruct l0 as [|x [|]]; try discriminate.
          inversion Q1 as [|? p ? ? A1 Q1']; subst. inversion Q1'; subst.
          inversion Q2 as [|g ? ? ? V1 Q2']; subst. inversion Q2'; subst.
          exists (- p)%Q. split; [now constructor|]. injection H as <-. cbn. now rewrite V1.
  Qed.
End Value.

(** ** the variables of a quantifier *)
Lemma bound_extends I vs tl vars e e' : typed_list_variable vs = Ok tl -> mk_vars tl = Ok vars ->
  (extends I vars e e' <-> bound I vs e e').
Proof.
  intros T V. pose proof (typed_vars_ok _ _ _ T V) as F.
  assert (E : vars = map (fun p => mkVar (fst p) (snd p)) tl).
  { clear - F. induction F as [|p v tl vars [-> _] F IH]; cbn; congruence. }
  assert (N : map v_name vars = map fst tl) by (rewrite E, map_map; reflexivity).
  assert (X : extends I vars e e' <->
    (forall n, ~ In n (map fst tl) -> e' n = e n)
    /\ (forall n gs, In (n, gs) tl -> gs = [] \/ exists g, In g gs /\ i_type I g (e' n))).
  { unfold extends. rewrite N. split; intros [A B]; split; auto.
    - intros n gs H. apply (B (mkVar n gs)). rewrite E. apply in_map_iff. exists (n, gs). auto.
    - intros v H. rewrite E in H. apply in_map_iff in H as ((n, gs) & <- & H). exact (B n gs H). }
  rewrite X. clear X. unfold bound. split.
  - intros [A B]. apply typed_list_variable_iff in T as (groups & tail & W & -> & _). eauto.
  - intros (groups & tail & W & A & B). apply (typed_list_variable_Ok _ _ _ _ W) in T as (-> & _). auto.
Qed.

(** ** conditions *)
Lemma parsed_is_num c x : forall f, f_exp c x = Ok f -> is_num f.
Proof.
  assert (H0 : forall x f, f_head c x = Ok f -> is_num f).
  { intros y f. destruct y as [[]|[|[[]|] l]]; cbn; try discriminate; intros H.
    - apply mk_numfun_Ok in H. subst. constructor.
    - apply bind_Ok in H as (ps & _ & H). apply bind_Ok in H as (rs & _ & H).
      apply bind_Ok in H as (ts & _ & H). apply mk_numfun_Ok in H. subst. constructor. }
  induction x as [t|l IH] using sexp_ind'; intros f H.
  - destruct t; try (match type of H with f_exp _ ?y = _ => exact (H0 y f H) end). cbn in H. apply bind_Ok in H as (v & _ & H).
    injection H as <-. constructor.
  - destruct l as [|[[]|] l]; try (match type of H with f_exp _ ?y = _ => exact (H0 y f H) end). cbn [f_exp] in H.
    destruct (arith_op s (length l)) as [k|] eqn:A; [|discriminate].
    apply bind_Ok in H as (ops & M & H). injection H as <-.
    inversion IH as [|? ? _ F]; subst. pose proof (mapR_Forall' _ _ _ _ M F) as N.
    assert (Ar : arith k).
    { apply arith_op_kind in A as [(_ & -> & _)|[(_ & -> & _)|[(_ & -> & _)|(_ & -> & _)]]];
        unfold arith; auto. }
    apply (mk_op_P is_num (CFun k)).
    + intros g ops' O. apply ops_if_raw in O. subst. cbn. inversion 1; auto.
    + intros ops' O. cbn. now constructor.
    + exact N.
Qed.

Section Cond.
  Variable I : interp.
  Variable c : gctx.
  Hypothesis C : ctx_ok c.
  Hypothesis HV : forall vs tl vars r, g_vars c vs = Ok tl -> mk_vars tl = Ok vars ->
    any_req [r; QUANTIFIED_PRECONDITION; ADL] (g_ext c) = true ->
    forall e e', extends I vars e e' <-> bound I vs e e'.

  Lemma atomic_pred_says n args f : atomic_pred c n args = Ok f ->
    exists ts, f = FPred n ts /\ args = flat_map term_text ts.
  Proof.
    unfold atomic_pred. intros H. apply bind_Ok in H as (ps & T & H). apply of_opt_Ok' in T.
    apply bind_Ok in H as (rs & R & H). apply bind_Ok in H as (ts & K & H).
    apply mk_pred_Ok in H. subst. exists ts. split; auto. eapply terms_text; eauto.
  Qed.
  Lemma atomic_eq_says args f : atomic_eq c args = Ok f ->
    exists t u, f = FEq t u /\ args = term_text t ++ term_text u.
  Proof.
    unfold atomic_eq. destruct (terms args) as [[|a [|b [|]]]|] eqn:T; try discriminate. intros H.
    apply bind_Ok in H as (ra & RA & H). apply bind_Ok in H as (rb & RB & H).
    apply bind_Ok in H as ([] & _ & H). apply bind_Ok in H as (l & L & H).
    apply bind_Ok in H as (r & R & H). apply mk_eq_Ok in H. subst. exists l, r. split; auto.
    rewrite (terms_shape _ _ T). cbn [flat_map]. rewrite app_nil_r.
    now rewrite (term_resolved _ _ _ _ C RA L), (term_resolved _ _ _ _ C RB R).
  Qed.
  Lemma term_text_sx t : term_sx (term_text t).
  Proof. destruct t; cbn; eexists; eauto. Qed.
  Lemma two_terms_starts args : two_terms args -> starts_term args = true.
  Proof. intros (t & u & (n & [->| ->]) & _ & ->); reflexivity. Qed.

  Lemma pred_says e n args ts : args = flat_map term_text ts ->
    (holds I e (FPred n ts) <-> exists os, denotes I e args os /\ i_pred I n os).
  Proof.
    intros ->. cbn [holds]. split.
    - intros H. eexists. split; [apply denotes_terms|exact H].
    - intros (os & D & H). now rewrite (denotes_unique _ _ _ _ (denotes_terms I e ts) _ D).
  Qed.
  Lemma eq_says e args t u : args = term_text t ++ term_text u ->
    (holds I e (FEq t u) <-> says I e (SList (SAtom (TOp "=") :: args))).
  Proof.
    intros E. cbn [holds says].
    assert (D : denotes I e args [den I e t; den I e u]).
    { rewrite E. pose proof (denotes_terms I e [t; u]) as D. cbn [flat_map map] in D. now rewrite app_nil_r in D. }
    split.
    - intros Q. left. split; auto. exists (den I e u). now rewrite Q in D.
    - intros [(_ & a & A)|(N & _)].
      + pose proof (denotes_unique _ _ _ _ A _ D) as X. congruence.
      + destruct N. split; auto. exists (term_text t), (term_text u). auto using term_text_sx.
  Qed.
  Lemma comparison_says e o k x y f g : Parser.comparison o = Some k -> (o = "=" -> starts_term [x; y] = false) ->
    toks_ok x -> toks_ok y -> plain_arithmetic x -> plain_arithmetic y ->
    f_exp c x = Ok f -> f_exp c y = Ok g ->
    (holds I e (mk_binfun k [f; g]) <-> says I e (SList [SAtom (TOp o); x; y])).
  Proof.
    intros K S Tx Ty Px Py Fx Fy.
    destruct (f_exp_value I c x C Tx Px f Fx e) as (p & Ap & Vp).
    destruct (f_exp_value I c y C Ty Py g Fy e) as (q & Aq & Vq).
    assert (X : says I e (SList [SAtom (TOp o); x; y]) <-> compares o p q).
    { cbn [says]. split.
      - intros [(-> & a & A)|(_ & x' & y' & p' & q' & [= <- <-] & A & B & R)].
        + specialize (S eq_refl). cbn in S. inversion A; subst; discriminate S.
        + pose proof (amount_unique _ _ _ _ _ A Ap) as E. pose proof (amount_unique _ _ _ _ _ B Aq) as E'.
          unfold compares in *. rewrite E, E' in R. exact R.
      - intros R. right. split; [|exists x, y, p, q; auto]. intros [-> W].
        apply two_terms_starts in W. rewrite S in W; auto. discriminate. }
    rewrite X. clear X. unfold compares, Parser.comparison in *.
    destruct (String.eqb_spec o ">="); [injection K as <-; subst; cbn; rewrite Vp, Vq|].
    { split; [auto 8|intros [(E & _)|[(E & _)|[(E & _)|[(E & _)|(E & R)]]]]; discriminate || exact R]. }
    destruct (String.eqb_spec o ">"); [injection K as <-; subst; cbn; rewrite Vp, Vq|].
    { split; [auto 8|intros [(E & _)|[(E & _)|[(E & _)|[(E & R)|(E & _)]]]]; discriminate || exact R]. }
    destruct (String.eqb_spec o "<="); [injection K as <-; subst; cbn; rewrite Vp, Vq|].
    { split; [auto 8|intros [(E & _)|[(E & _)|[(E & R)|[(E & _)|(E & _)]]]]; discriminate || exact R]. }
    destruct (String.eqb_spec o "<"); [injection K as <-; subst; cbn; rewrite Vp, Vq|].
    { split; [auto 8|intros [(E & _)|[(E & R)|[(E & _)|[(E & _)|(E & _)]]]]; discriminate || exact R]. }
    destruct (String.eqb_spec o "="); [injection K as <-; subst|discriminate].
    rewrite holds_mk_equal by (repeat constructor; eapply parsed_is_num; eauto). cbn [holds map In].
    split.
    - intros H. left. split; auto. rewrite <- Vp, <- Vq. apply H; auto.
    - intros [(_ & R)|[(E & _)|[(E & _)|[(E & _)|(E & _)]]]]; try discriminate.
      assert (Q : (value I e f == value I e g)%Q) by now rewrite Vp, Vq.
      intros a b [<-|[<-|[]]] [<-|[<-|[]]]; try reflexivity; auto. now symmetry.
  Qed.

  Lemma says_and e l : fold_right (fun x p => says I e x /\ p) True l <-> Forall (says I e) l.
  Proof. induction l; cbn; [intuition|]. rewrite IHl, Forall_cons_iff. reflexivity. Qed.
  Lemma says_or e l : fold_right (fun x p => says I e x \/ p) False l <-> Exists (says I e) l.
  Proof. induction l; cbn; [now rewrite Exists_nil|]. rewrite IHl, Exists_cons. reflexivity. Qed.

  Definition means (x : sexp) (f : form) : Prop := forall e, holds I e f <-> says I e x.
  Lemma mapR_means l fs : mapR (gd c) l = Ok fs ->
    Forall (fun x => toks_ok x -> plain_arithmetic x -> forall f, gd c x = Ok f -> means x f) l ->
    (forall x, In x l -> toks_ok x /\ plain_arithmetic x) -> Forall2 means l fs.
  Proof.
    intros M F P. apply mapR_Ok in M. revert F P.
    induction M as [|x f l fs E M IH]; intros F P; constructor; inversion F; subst.
    - destruct (P x (or_introl eq_refl)). auto.
    - apply IH; auto. intros y Y. apply P. now right.
  Qed.

  Lemma gd_means x : toks_ok x -> plain_arithmetic x -> forall f, gd c x = Ok f -> means x f.
  Proof.
    induction x as [t|l IH] using sexp_ind'; intros T P f H; [discriminate|].
    assert (TP : forall x, In x l -> toks_ok x /\ plain_arithmetic x).
    { intros x X. split; [eapply toks_in|eapply plain_in]; eauto. }
    destruct l as [|[[]|] args]; try discriminate; inversion IH as [|? ? _ IHa]; subst; clear IH.
    - assert (TA : forall x, In x args -> toks_ok x /\ plain_arithmetic x) by (intros; apply TP; now right).
      intros e. cbn [gd] in H. cbn [says].
      destruct (String.eqb_spec s "or") as [->|N1].
      { apply bind_Ok in H as (ops & M & H). apply bind_Ok in H as ([] & _ & H). injection H as <-.
        cbn [String.eqb Ascii.eqb Bool.eqb]. rewrite holds_mk_or, says_or.
        pose proof (mapR_means _ _ M IHa TA) as F. clear - F.
        induction F; [now rewrite !Exists_nil|]. rewrite !Exists_cons. rewrite (H e), IHF. reflexivity. }
      destruct (String.eqb_spec s "not") as [->|N2].
      { destruct args as [|x [|]]; try discriminate. apply bind_Ok in H as (g & G & H). injection H as <-.
        cbn [String.eqb Ascii.eqb Bool.eqb]. inversion IHa; subst. destruct (TA x (or_introl eq_refl)) as [Tx Px].
        cbn [mk_not holds]. rewrite (H1 Tx Px _ G e). reflexivity. }
      destruct (String.eqb_spec s "and") as [->|N3].
      { apply bind_Ok in H as (ops & M & H). injection H as <-. rewrite holds_mk_and, says_and.
        pose proof (mapR_means _ _ M IHa TA) as F. clear - F.
        induction F; [split; constructor|]. rewrite !Forall_cons_iff. rewrite (H e), IHF. reflexivity. }
      destruct (String.eqb_spec s "imply") as [->|N4].
      { destruct args as [|x [|y [|]]]; try discriminate.
        apply bind_Ok in H as (g & G & H). apply bind_Ok in H as (h & G' & H).
        apply bind_Ok in H as ([] & _ & H). injection H as <-.
        cbn [String.eqb Ascii.eqb Bool.eqb]. inversion IHa as [|? ? Hx I2]; subst. inversion I2 as [|? ? Hy _]; subst.
        destruct (TA x (or_introl eq_refl)) as [Tx Px].
        destruct (TA y (or_intror (or_introl eq_refl))) as [Ty Py].
        cbn [mk_bin mk_op metaclass raw_node holds]. rewrite (Hx Tx Px _ G e), (Hy Ty Py _ G' e). reflexivity. }
      assert (Qf : forall q r vs x g tl vars, any_req [r; QUANTIFIED_PRECONDITION; ADL] (g_ext c) = true ->
        g_vars c vs = Ok tl -> mk_vars tl = Ok vars -> means x g ->
        (holds I e (mk_quant q vars g) <-> match q with
           | QForall => forall e', bound I vs e e' -> says I e' x
           | QExists => exists e', bound I vs e e' /\ says I e' x end)).
      { intros q r vs x g tl vars R Gv V Mx. unfold mk_quant. destruct q; cbn [holds].
        - split; intros X e' B.
          + apply Mx, X. apply extends_dedup. now apply (HV _ _ _ _ Gv V R).
          + apply Mx, X. apply (HV _ _ _ _ Gv V R). now apply extends_dedup.
        - split; intros (e' & B & X); exists e'; (split; [|now apply Mx]).
          + apply (HV _ _ _ _ Gv V R). now apply extends_dedup.
          + apply extends_dedup. now apply (HV _ _ _ _ Gv V R). }
      destruct (String.eqb_spec s "exists") as [->|N5].
      { cbn [orb] in H. cbn [String.eqb Ascii.eqb Bool.eqb].
        destruct args as [|[|vs] [|x [|]]]; try discriminate.
        apply bind_Ok in H as (tl & TL & H). apply bind_Ok in H as (g & G & H).
        apply bind_Ok in H as ([] & R & H). apply bind_Ok in H as (vars & V & H). injection H as <-.
        apply check_Ok in R. inversion IHa as [|? ? _ I2]; subst. inversion I2 as [|? ? Hx _]; subst.
        destruct (TA x (or_intror (or_introl eq_refl))) as [Tx Px].
        apply (Qf QExists _ vs x g tl vars R TL V). intros e'. now apply (Hx Tx Px). }
      destruct (String.eqb_spec s "forall") as [->|N6].
      { cbn [orb] in H. cbn [String.eqb Ascii.eqb Bool.eqb].
        destruct args as [|[|vs] [|x [|]]]; try discriminate.
        apply bind_Ok in H as (tl & TL & H). apply bind_Ok in H as (g & G & H).
        apply bind_Ok in H as ([] & R & H). apply bind_Ok in H as (vars & V & H). injection H as <-.
        apply check_Ok in R. inversion IHa as [|? ? _ I2]; subst. inversion I2 as [|? ? Hx _]; subst.
        destruct (TA x (or_intror (or_introl eq_refl))) as [Tx Px].
        apply (Qf QForall _ vs x g tl vars R TL V). intros e'. now apply (Hx Tx Px). }
      cbn [orb] in H. apply atomic_pred_says in H as (ts & -> & E). now apply pred_says.
    - cbn [gd] in H. intros e.
      destruct (String.eqb_spec s "=") as [->|N].
      + cbn [andb] in H. destruct (starts_term args) eqn:ST.
        * apply atomic_eq_says in H as (t & u & -> & E). now apply eq_says.
        * cbn in H. destruct args as [|x [|y [|]]]; try discriminate.
          apply bind_Ok in H as (g & G & H). apply bind_Ok in H as (h & G' & H). injection H as <-.
          destruct (TP x) as [Tx Px]; [simpl; auto|]. destruct (TP y) as [Ty Py]; [simpl; auto|].
          apply (comparison_says e "=" BEqual); auto.
      + cbn [andb] in H. destruct (Parser.comparison s) as [k|] eqn:K; [|discriminate].
        destruct args as [|x [|y [|]]]; try discriminate.
        apply bind_Ok in H as (g & G & H). apply bind_Ok in H as (h & G' & H). injection H as <-.
        destruct (TP x) as [Tx Px]; [simpl; auto|]. destruct (TP y) as [Ty Py]; [simpl; auto|].
        apply (comparison_says e s k); auto. intros ->. contradiction.
  Qed.
End Cond.
