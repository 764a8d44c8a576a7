(** Parsed conditions and effects are conditions and effects in the sense of Spec_Text.v, up to the
    number of arithmetic operands and the number of types of quantified variables. *)
From Coq Require Import String List Bool Arith Lia ZArith.
From Verif Require Import Py Names Reqs Logic Validation Core Lexer TypedList UpdateTags Parser.
From Verif Require Import Built Spec Spec_Parse Spec_Print Spec_Text Spec_Domain Spec_Format.
From Verif Require Import Py_facts Logic_facts Ops_facts Built_facts Names_facts Order_facts TypedList_facts Parse_facts
  GD_facts Derived_facts.
Import ListNotations.
Open Scope string_scope.
Open Scope list_scope.

Definition vars_ok (vs : list var) : Prop := Forall legal_var vs /\ untyped_last vs /\ repeats_same vs.

Section Loose.
  Variable F : term -> Prop.
  Variable X : list req.
  Definition allows (rs : list req) : Prop := exists r, In r rs /\ In r X.


  Fixpoint lexp (f : form) : Prop :=
    match f with
    | FNumFun n ts => legal_function n /\ Forall F ts
    | FNumVal (NInt z) => (0 <= z)%Z
    | FNumVal (NDec m _) => (0 <= m)%Z
    | FBinFun BMinus ops => match ops with [a] => lexp a | _ => False end
    | FBinFun (BPlus | BTimes | BDivide) ops => fold_right (fun g p => lexp g /\ p) True ops
    | _ => False
    end.
  Definition latom (f : form) : Prop :=
    match f with
    | FPred n ts => legal_name n /\ Forall F ts /\ name_consistent ts
    | FEq l r => In EQUALITY X /\ F l /\ F r /\ name_consistent [l; r]
    | _ => False
    end.
  Fixpoint lcond (f : form) : Prop :=
    match f with
    | FPred _ _ | FEq _ _ => latom f
    | FBinFun (BLess | BLessEq | BGreater | BGreaterEq) ops =>
        match ops with [a; b] => lexp a /\ lexp b | _ => False end
    | FBinFun BEqual ops => Forall lexp ops
    | FBin OAnd ops => fold_right (fun g p => lcond g /\ p) True ops
    | FBin OOr ops => allows [DIS_PRECONDITION; ADL] /\ fold_right (fun g p => lcond g /\ p) True ops
    | FBin OImply ops =>
        match ops with [a; b] => allows [DIS_PRECONDITION; ADL] /\ lcond a /\ lcond b | _ => False end
    | FNot g => lcond g
    | FQuant q vs g =>
        allows [match q with QExists => EXISTENTIAL_PRECONDITION | QForall => UNIVERSAL_PRECONDITION end;
                QUANTIFIED_PRECONDITION; ADL] /\ vars_ok vs /\ lcond g
    | _ => False
    end.
  Definition lprim (f : form) : Prop :=
    match f with
    | FPred _ _ | FEq _ _ => latom f
    | FNot g => latom g
    | FBinFun (BAssign | BScaleUp | BScaleDown | BIncrease | BDecrease) ops =>
        match ops with [FNumFun n ts; e] => legal_function n /\ Forall F ts /\ lexp e | _ => False end
    | _ => False
    end.
  Definition lcons (f : form) : Prop :=
    lprim f \/ exists ops, f = FBin OAnd ops /\ Forall lprim ops.
  Fixpoint leff (top : bool) (f : form) : Prop :=
    lprim f \/
    match f with
    | FBin OAnd ops => top = true /\ fold_right (fun g p => leff false g /\ p) True ops
    | FForall vs e => vars_ok vs /\ leff true e
    | FWhen g e => lcond g /\ lcons e
    | FBin OOneOf ops => In NON_DETERMINISTIC X /\ ops <> [] /\ fold_right (fun g p => leff true g /\ p) True ops
    | _ => False
    end.

  (** ** closure under the constructors *)
  Lemma lexp_ops k f ops : In k [BPlus; BTimes; BDivide] -> ops_if (CFun k) f = Some ops -> lexp f -> Forall lexp ops.
  Proof.
    intros K O L. apply ops_if_raw in O. subst f. cbn [raw_node lexp] in L.
    destruct K as [<-|[<-|[<-|[]]]]; now apply fold_and_Forall in L.
  Qed.
  Lemma lexp_mk k ops : In k [BPlus; BTimes; BDivide] -> Forall lexp ops -> lexp (mk_binfun k ops).
  Proof.
    intros K. apply (mk_op_P lexp (CFun k)).
    - intros f l. now apply lexp_ops.
    - intros l L. destruct K as [<-|[<-|[<-|[]]]]; cbn [raw_node lexp]; now apply fold_and_Forall.
  Qed.
  Lemma equal_mk ops : Forall lexp ops -> lcond (mk_binfun BEqual ops).
  Proof.
    intros L. unfold mk_binfun, mk_op. cbn [metaclass].
    assert (L' : Forall lexp (simplify_operands (CFun BEqual) false ops)).
    { apply simplify_P; auto. intros f l O. apply ops_if_raw in O. subst f. intros []. }
    destruct (simplify_operands (CFun BEqual) false ops) as [|x [|y l]]; exact L'.
  Qed.
  Lemma lcond_and ops : Forall lcond ops -> lcond (mk_and ops).
  Proof.
    apply (mk_op_P lcond (CBin OAnd)).
    - intros f l O L. apply ops_if_raw in O. subst f. now apply fold_and_Forall in L.
    - intros l L. cbn [raw_node lcond]. now apply fold_and_Forall.
  Qed.
  Lemma lcond_or ops : allows [DIS_PRECONDITION; ADL] -> Forall lcond ops -> lcond (mk_or ops).
  Proof.
    intros A. apply (mk_op_P lcond (CBin OOr)).
    - intros f l O L. apply ops_if_raw in O. subst f. destruct L as [_ L]. now apply fold_and_Forall in L.
    - intros l L. cbn [raw_node lcond]. split; auto. now apply fold_and_Forall.
  Qed.
  Lemma mk_and_cases (P : form -> Prop) ops : (forall l, ~ P (FBin OAnd l)) -> Forall P ops ->
    P (mk_and ops) \/ exists l, mk_and ops = FBin OAnd l /\ Forall P l.
  Proof.
    intros N L. unfold mk_and, mk_op. cbn [metaclass].
    assert (L' : Forall P (simplify_operands (CBin OAnd) true ops)).
    { apply simplify_P; auto. intros f l O. apply ops_if_raw in O. subst f. intros Q. destruct (N _ Q). }
    destruct (simplify_operands (CBin OAnd) true ops) as [|x [|y l]].
    - right. exists []. auto.
    - left. now inversion L'.
    - right. exists (x :: y :: l). auto.
  Qed.
  Lemma lprim_not_and l : ~ lprim (FBin OAnd l).
  Proof. intros []. Qed.
  Lemma leff_not_and l : ~ leff false (FBin OAnd l).
  Proof. intros [[]|[H _]]. discriminate. Qed.
  Lemma leff_weaken f : leff false f -> leff true f.
  Proof. destruct f; cbn [leff]; auto. destruct k; auto. intros [H|[H _]]; [auto|discriminate]. Qed.
  Lemma leff_prim b f : lprim f -> leff b f.
  Proof. destruct f; cbn [leff]; auto. Qed.
  Lemma lcond_atom f : latom f -> lcond f.
  Proof. destruct f; cbn; auto; intros []. Qed.
  Lemma lprim_atom f : latom f -> lprim f.
  Proof. destruct f; cbn; auto; intros []. Qed.
End Loose.

Lemma has_allows X rs : any_req rs X = true -> allows X rs.
Proof.
  unfold any_req. intros H. apply existsb_exists in H as (r & R & H). exists r. split; auto. now apply has_In.
Qed.

Section Parsed.
  Variable c : gctx.
  Variable F : term -> Prop.
  Hypothesis HF : forall t, from_ctx c t -> F t.
  Hypothesis HV : forall s tl vs, g_vars c s = Ok tl -> mk_vars tl = Ok vs -> vars_ok (dedup var_eqb vs).
  Let X := g_ext c.
  Lemma terms_F ps rs ts : mapR (resolve c) ps = Ok rs -> mapR (constant_or_variable c) rs = Ok ts -> Forall F ts.
  Proof. intros R T. eapply Forall_impl; [exact HF|]. eapply terms_from; eauto. Qed.
  Lemma numfun_l n ts f : Forall F ts -> mk_numfun n ts = Ok f -> f = FNumFun n ts /\ legal_function n.
  Proof.
    intros T H. unfold mk_numfun in H. apply bind_Ok in H as (n' & N & H). apply parse_function_Ok' in N as [-> N].
    now injection H as <-.
  Qed.
  Lemma atomic_pred_l n args f : atomic_pred c n args = Ok f -> latom F X f.
  Proof.
    unfold atomic_pred. intros H. apply bind_Ok in H as (ps & _ & H).
    apply bind_Ok in H as (rs & R & H). apply bind_Ok in H as (ts & T & H).
    apply mk_pred_iff in H as (-> & L & N). split; auto. split; auto. eapply terms_F; eauto.
  Qed.
  Lemma atomic_eq_l args f : atomic_eq c args = Ok f -> latom F X f.
  Proof.
    unfold atomic_eq. destruct (terms args) as [[|a [|b [|]]]|]; try discriminate. intros H.
    apply bind_Ok in H as (ra & RA & H). apply bind_Ok in H as (rb & RB & H).
    apply bind_Ok in H as ([] & E & H). apply bind_Ok in H as (l & L & H).
    apply bind_Ok in H as (r & R & H). apply mk_eq_iff in H as (-> & N). apply check_Ok, has_In in E.
    split; [exact E|]. split; [|split]; auto; apply HF; [exact (constant_or_variable_from _ _ _ _ RA L)|exact (constant_or_variable_from _ _ _ _ RB R)].
  Qed.
  Lemma atomic_formula_term_l s f : atomic_formula_term c s = Ok f -> latom F X f.
  Proof.
    destruct s as [|[|[[]|] l]]; simpl; try discriminate.
    - apply atomic_pred_l.
    - destruct (String.eqb s "="); [apply atomic_eq_l|discriminate].
  Qed.
  Lemma f_head_l s f : f_head c s = Ok f -> exists n ts, f = FNumFun n ts /\ legal_function n /\ Forall F ts.
  Proof.
    destruct s as [[]|[|[[]|] l]]; simpl; try discriminate; intros H.
    - apply numfun_l in H as [-> L]; eauto.
    - apply bind_Ok in H as (ps & _ & H).
      apply bind_Ok in H as (rs & R & H). apply bind_Ok in H as (ts & T & H).
      pose proof (terms_F _ _ _ R T) as FT. apply numfun_l in H as [-> L]; eauto.
  Qed.
  Lemma num_literal_l n v : num_literal n = Ok v -> lexp F (FNumVal v).
  Proof.
    unfold num_literal. destruct (split_dot n) as [i [f|]]; intros H; apply bind_Ok in H as (k & _ & H);
      injection H as <-; cbn; lia.
  Qed.
  Lemma f_exp_l s : forall f, f_exp c s = Ok f -> lexp F f.
  Proof.
    assert (H0 : forall x g, f_head c x = Ok g -> lexp F g).
    { intros x g H. apply f_head_l in H as (n & ts & -> & L & T). cbn. auto. }
    induction s as [t|l IH] using sexp_ind'; intros f.
    - destruct t; try (apply H0). simpl. intros H. apply bind_Ok in H as (v & V & H).
      injection H as <-. now apply num_literal_l with s.
    - destruct l as [|[[]|] args]; try (apply H0). cbn [f_exp]. inversion IH as [|? ? _ IHa]; subst.
      intros H. destruct (arith_op s (length args)) as [k|] eqn:A; [|discriminate].
      apply bind_Ok in H as (ops & M & H). injection H as <-.
      assert (L : Forall (lexp F) ops) by (eapply mapR_Forall'; eauto).
      pose proof (proj1 (mapR_Ok _ _ _) M) as M2.
      assert (Len : length args = length ops) by (clear - M2; induction M2; cbn; auto).
      unfold arith_op in A.
      destruct (String.eqb s "+"). { destruct (Nat.leb _ _); [|discriminate]. injection A as <-. apply lexp_mk; simpl; auto. }
      destruct (String.eqb s "*"). { destruct (Nat.leb _ _); [|discriminate]. injection A as <-. apply lexp_mk; simpl; auto. }
      destruct (String.eqb s "/"). { destruct (Nat.eqb _ _); [|discriminate]. injection A as <-. apply lexp_mk; simpl; auto. }
      destruct (String.eqb s "-"); [|discriminate]. destruct (Nat.eqb_spec (length args) 1) as [E|]; [|discriminate].
      injection A as <-. rewrite E in Len. destruct ops as [|a [|]]; try discriminate.
      cbn. now inversion L.
  Qed.
  Lemma gd_l s : forall f, gd c s = Ok f -> lcond F X f.
  Proof.
    induction s as [t|l IH] using sexp_ind'; intros f; [discriminate|].
    destruct l as [|[[]|] args]; try discriminate; inversion IH as [|? ? _ IHa]; subst; clear IH.
    - cbn [gd]. destruct (String.eqb s "or").
      { intros H. apply bind_Ok in H as (ops & M & H). apply bind_Ok in H as ([] & E & H).
        injection H as <-. apply check_Ok in E. apply lcond_or; [now apply has_allows|]. eapply mapR_Forall'; eauto. }
      destruct (String.eqb s "not").
      { destruct args as [|x [|]]; try discriminate. intros H. apply bind_Ok in H as (g & G & H).
        injection H as <-. inversion IHa; subst. cbn. auto. }
      destruct (String.eqb s "and").
      { intros H. apply bind_Ok in H as (ops & M & H). injection H as <-. apply lcond_and.
        eapply mapR_Forall'; eauto. }
      destruct (String.eqb s "imply").
      { destruct args as [|x [|y [|]]]; try discriminate. intros H.
        apply bind_Ok in H as (g & G & H). apply bind_Ok in H as (h & G' & H).
        apply bind_Ok in H as ([] & E & H). injection H as <-. apply check_Ok in E.
        inversion IHa as [|? ? Hx I2]; subst. inversion I2; subst.
        cbn. split; [now apply has_allows|auto]. }
      destruct (String.eqb s "exists" || String.eqb s "forall") eqn:Q.
      { destruct args as [|[|vs] [|x [|]]]; try (destruct (String.eqb s "exists"); discriminate).
        inversion IHa as [|? ? _ I2]; subst. inversion I2 as [|? ? Hx _]; subst.
        destruct (String.eqb s "exists"); intros H;
        apply bind_Ok in H as (tl & TL & H); apply bind_Ok in H as (g & G & H);
        apply bind_Ok in H as ([] & E & H); apply bind_Ok in H as (vars & V & H);
        injection H as <-; apply check_Ok in E;
        (split; [now apply has_allows|split; [now apply (HV vs tl)|now apply Hx]]). }
      intros H. apply lcond_atom. eapply atomic_pred_l; eauto.
    - cbn [gd]. destruct (String.eqb s "=" && starts_term args).
      { intros H. apply lcond_atom. eapply atomic_eq_l; eauto. }
      destruct (Parser.comparison s) as [k|] eqn:K; [|discriminate].
      destruct args as [|x [|y [|]]]; try discriminate. intros H.
      apply bind_Ok in H as (g & G & H). apply bind_Ok in H as (h & G' & H). injection H as <-.
      apply f_exp_l in G. apply f_exp_l in G'.
      unfold Parser.comparison in K.
      repeat match type of K with (if ?b then _ else _) = _ => destruct b end; try discriminate; injection K as <-;
        try (now cbn; auto). apply equal_mk. repeat constructor; auto.
  Qed.
  Lemma emptyor_pregd_l s f : emptyor_pregd c s = Ok f -> f = FBin OOr [] \/ lcond F X f.
  Proof.
    destruct s as [|[|x l]]; cbn [emptyor_pregd]; try (intros H; right; now apply gd_l with (1 := H)).
    intros [= <-]. now left.
  Qed.
  Lemma p_effect_l s f : p_effect c s = Ok f -> lprim F X f.
  Proof.
    assert (A : forall x g, atomic_formula_term c x = Ok g -> lprim F X g).
    { intros x g H. apply lprim_atom. eapply atomic_formula_term_l; eauto. }
    destruct s as [|[|[[]|] args]]; try apply A. unfold p_effect.
    destruct (String.eqb s "not").
    - destruct args as [|x [|]]; try discriminate. intros H. apply bind_Ok in H as (g & G & H).
      injection H as <-. cbn. eapply atomic_formula_term_l; eauto.
    - destruct (assign_op s) as [k|] eqn:K; [|apply A].
      destruct args as [|h [|e [|]]]; try discriminate. intros H.
      apply bind_Ok in H as (g & G & H). apply bind_Ok in H as (g' & G' & H). injection H as <-.
      apply f_head_l in G as (n & ts & -> & L & T). apply f_exp_l in G'.
      unfold assign_op in K.
      repeat match type of K with (if ?b then _ else _) = _ => destruct b end; try discriminate; injection K as <-;
        cbn; auto.
  Qed.
  Lemma cond_effect_l s f : cond_effect c s = Ok f -> lcons F X f.
  Proof.
    assert (A : forall x g, p_effect c x = Ok g -> lcons F X g).
    { intros x g H. left. eapply p_effect_l; eauto. }
    destruct s as [|[|[[]|] args]]; try apply A. unfold cond_effect.
    destruct (String.eqb s "and"); [|apply A].
    intros H. apply bind_Ok in H as (ops & M & H). injection H as <-.
    destruct (mk_and_cases (lprim F X) ops) as [P|P].
    - apply lprim_not_and.
    - eapply mapR_Forall'; eauto. apply Forall_forall. intros x _ y. apply p_effect_l.
    - now left.
    - now right.
  Qed.
  Lemma effect_l s : forall top f, effect c top s = Ok f -> leff F X top f.
  Proof.
    assert (A : forall top x g, p_effect c x = Ok g -> leff F X top g).
    { intros top x g H. apply leff_prim. eapply p_effect_l; eauto. }
    induction s as [t|l IH] using sexp_ind'; intros top f; [apply A|].
    destruct l as [|[[]|] args]; try (apply A).
    inversion IH as [|? ? _ IHa]; subst; clear IH. cbn [effect].
    destruct (top && String.eqb s "and") eqn:T.
    { apply andb_true_iff in T as [-> _]. intros H. apply bind_Ok in H as (ops & M & H). injection H as <-.
      destruct (mk_and_cases (leff F X false) ops) as [P|(l & -> & P)].
      - apply leff_not_and.
      - eapply mapR_Forall'; eauto. eapply Forall_impl; [|exact IHa]. simpl. eauto.
      - now apply leff_weaken.
      - right. split; auto. now apply fold_and_Forall. }
    destruct (String.eqb s "forall").
    { destruct args as [|[|vs] [|x [|]]]; try discriminate. intros H.
      apply bind_Ok in H as (tl & TL & H). apply bind_Ok in H as (g & G & H).
      apply bind_Ok in H as (vars & V & H).
      injection H as <-. inversion IHa as [|? ? _ I2]; subst. inversion I2; subst.
      right. split; [now apply (HV vs tl)|auto]. }
    destruct (String.eqb s "when").
    { destruct args as [|x [|y [|]]]; try discriminate. intros H.
      apply bind_Ok in H as (g & G & H). apply bind_Ok in H as (h & G' & H).
      injection H as <-. right. split; [eapply gd_l; eauto|eapply cond_effect_l; eauto]. }
    destruct (String.eqb s "oneof"); [|apply A].
    destruct args as [|x args]; try discriminate. intros H.
    apply bind_Ok in H as (ops & M & H). apply bind_Ok in H as ([] & E & H). apply check_Ok, has_In in E.
    injection H as <-. right. split; auto. split.
    - intros ->. apply mapR_Ok in M. inversion M.
    - apply fold_and_Forall. eapply mapR_Forall'; eauto. eapply Forall_impl; [|exact IHa]. simpl. eauto.
  Qed.
  Lemma emptyor_effect_l s f : emptyor_effect c s = Ok f -> f = FBin OOr [] \/ leff F X true f.
  Proof.
    destruct s as [|[|x l]]; cbn [emptyor_effect]; try (intros H; right; now apply effect_l with (1 := H)).
    intros [= <-]. now left.
  Qed.
End Parsed.

(** ** with the right numbers of operands and types, they are the forms of Spec_Text.v *)
Section Strict.
  Variable c' : gctx.
  Variable F : term -> Prop.
  Variable X : list req.
  Hypothesis HFit : forall t, F t -> fits c' t.
  Hypothesis HX : forall r, In r X -> In r (g_ext c').
  Lemma all_fit ts : Forall F ts -> Forall (fits c') ts.
  Proof. apply Forall_impl, HFit. Qed.
  Lemma allows_allowed rs : allows X rs -> allowed c' rs.
  Proof. intros (r & R & H). exists r. auto. Qed.
  Lemma block_ok vs : vars_ok vs -> Forall one_type vs -> block vs.
  Proof. intros (A & B & C) D. split; auto. Qed.
  Lemma each {P Q R : form -> Prop} ops : Forall (fun f => P f -> Q f -> R f) ops ->
    Forall P ops -> Forall Q ops -> Forall R ops.
  Proof. induction 1; intros A B; inversion A; inversion B; subst; constructor; auto. Qed.
  Lemma lexp_strict f : lexp F f -> writable f -> expression c' f.
  Proof.
    induction f using form_ind'; cbn [lexp writable]; try (intros []; fail).
    - intros [A B] _. constructor; auto using all_fit.
    - destruct v; intros A _; try (now destruct A); now constructor.
    - destruct k; intros A [B C]; try (now destruct A); cbn [arity_ok] in B; apply fold_and_Forall in C.
      + destruct ops as [|a [|]]; try (now destruct A). inversion H; subst. inversion C; subst.
        constructor. auto.
      + apply fold_and_Forall in A. constructor; auto. eapply each; eauto.
      + apply fold_and_Forall in A. constructor; auto. eapply each; eauto.
      + apply fold_and_Forall in A. pose proof (each _ H A C) as D.
        destruct ops as [|a [|b [|]]]; try discriminate. inversion D as [|? ? Da D']; subst.
        inversion D'; subst. constructor; auto.
  Qed.
  Lemma lexps_strict ops : Forall (lexp F) ops -> Forall writable ops -> Forall (expression c') ops.
  Proof. apply each. apply Forall_forall. intros f _. apply lexp_strict. Qed.
  Lemma latom_strict f : latom F X f -> atom_form c' f.
  Proof.
    destruct f; cbn; try (intros []; fail).
    - intros (A & B & C). constructor; auto using all_fit.
    - intros (A & B & C & D). constructor; auto.
  Qed.
  Lemma lcond_strict f : lcond F X f -> writable f -> condition c' f.
  Proof.
    induction f using form_ind'; cbn [lcond writable]; try (intros []; fail).
    - intros A _. apply C_atom. now apply latom_strict.
    - intros A _. apply C_atom. now apply latom_strict.
    - destruct k; intros A [B C]; try (now destruct A); cbn [arity_ok] in B; apply fold_and_Forall in C;
        try (destruct ops as [|a [|b [|]]]; try (now destruct A); destruct A as [A1 A2];
             inversion C as [|? ? C1 C']; subst; inversion C'; subst;
             apply C_compare; [simpl; auto 10| |]; now apply lexp_strict).
      pose proof (lexps_strict _ A C) as D.
      destruct ops as [|a [|b [|]]]; try discriminate. inversion D as [|? ? Da D']; subst.
      inversion D'; subst. apply C_compare; simpl; auto.
    - destruct k; intros A C; try (now destruct A).
      + apply fold_and_Forall in A. apply fold_and_Forall in C. apply C_and. eapply each; eauto.
      + destruct A as [A' A]. apply fold_and_Forall in A. apply fold_and_Forall in C.
        apply C_or; auto using allows_allowed. eapply each; eauto.
      + destruct ops as [|a [|b [|]]]; try (now destruct A). destruct A as (A' & Aa & Ab).
        cbn [fold_right] in C. destruct C as (Ca & Cb & _).
        inversion H as [|? ? Ha H']; subst. inversion H'; subst. apply C_imply; auto using allows_allowed.
    - intros A B. apply C_not. auto.
    - intros (A & B & C) (D & E). apply allows_allowed in A.
      destruct q; [apply C_forall|apply C_exists]; auto using block_ok.
  Qed.
  Lemma lprim_strict f : lprim F X f -> writable f -> primitive c' f.
  Proof.
    destruct f as [| | | |k l| | | | |]; cbn [lprim]; try (intros []; fail).
    - intros A _. apply P_atom. now apply latom_strict.
    - intros A _. apply P_atom. now apply latom_strict.
    - destruct k; try (intros []; fail);
        (destruct l as [|[] [|e [|]]]; try (intros []; fail));
        intros (A & B & C) W; cbn [writable fold_right] in W; destruct W as (_ & _ & W & _);
        (apply P_assign; [simpl; auto 10|auto|auto using all_fit|now apply lexp_strict]).
    - intros A _. apply P_not. now apply latom_strict.
  Qed.
  Lemma lprims_strict ops : Forall (lprim F X) ops -> Forall writable ops -> Forall (primitive c') ops.
  Proof. apply each. apply Forall_forall. intros f _. apply lprim_strict. Qed.
  Lemma lcons_strict f : lcons F X f -> writable f -> consequence c' f.
  Proof.
    intros [A|(ops & -> & A)] W.
    - apply Q_prim. now apply lprim_strict.
    - cbn [writable] in W. apply fold_and_Forall in W. apply Q_and. now apply lprims_strict.
  Qed.
  Lemma leff_strict f : forall b, leff F X b f -> writable f -> effect_form c' b f.
  Proof.
    induction f using form_ind'; intros t; cbn [leff]; (intros [A|A] W; [apply F_prim; now apply lprim_strict|]);
      try (now destruct A).
    - destruct k; try (now destruct A).
      + destruct A as [-> A]. cbn [writable] in W. apply fold_and_Forall in A. apply fold_and_Forall in W.
        apply F_and. eapply each; [|exact A|exact W]. eapply Forall_impl; [|exact H]. simpl. auto.
      + destruct A as (A1 & A2 & A). cbn [writable] in W. apply fold_and_Forall in A. apply fold_and_Forall in W.
        apply F_oneof; auto. eapply each; [|exact A|exact W]. eapply Forall_impl; [|exact H]. simpl. auto.
    - destruct A as [A B], W as [W1 W2]. apply F_when; auto using lcond_strict, lcons_strict.
    - destruct A as [A B], W as [W1 W2]. apply F_forall; auto using block_ok.
  Qed.
End Strict.

(** ** without the types of variables *)
Section Bare.
  Variable F F' A : term -> Prop.
  Variable X : list req.
  Hypothesis HA : forall t, A t -> F t -> F' (bare_term t).
  Hypothesis HN : forall t u, A t -> A u -> F t -> F u -> t_name t = t_name u ->
    (forall g, In g (t_tags t) <-> In g (t_tags u)) ->
    forall g, In g (t_tags (bare_term t)) <-> In g (t_tags (bare_term u)).
  Lemma terms_bare ts : Forall A ts -> Forall F ts -> Forall F' (map bare_term ts).
  Proof. induction 1; intros B; inversion B; subst; constructor; auto. Qed.
  Lemma bare_name t : t_name (bare_term t) = t_name t.
  Proof. now destruct t. Qed.
  Lemma consistent_bare ts : Forall A ts -> Forall F ts -> name_consistent ts -> name_consistent (map bare_term ts).
  Proof.
    intros B C N t u T U E. rewrite Forall_forall in B, C.
    apply in_map_iff in T as (t0 & <- & T). apply in_map_iff in U as (u0 & <- & U).
    rewrite !bare_name in E. apply HN; auto.
  Qed.
  Definition args_in (f : form) : Prop := forall t, argument t f -> A t.
  Lemma args_ts n ts : args_in (FPred n ts) -> Forall A ts.
  Proof. intros H. apply Forall_forall. intros t T. apply H. now constructor. Qed.
  Lemma args_fs n ts : args_in (FNumFun n ts) -> Forall A ts.
  Proof. intros H. apply Forall_forall. intros t T. apply H. now constructor. Qed.
  Lemma args_bf k ops : args_in (FBinFun k ops) -> Forall args_in ops.
  Proof. intros H. apply Forall_forall. intros g G t T. apply H. econstructor; eauto. Qed.
  Lemma args_b k ops : args_in (FBin k ops) -> Forall args_in ops.
  Proof. intros H. apply Forall_forall. intros g G t T. apply H. econstructor; eauto. Qed.
  Lemma each_bare {P Q R : form -> Prop} ops : Forall (fun f => P f -> Q f -> R (bare f)) ops ->
    Forall P ops -> Forall Q ops -> Forall R (map bare ops).
  Proof. induction 1; intros B C; inversion B; inversion C; subst; constructor; auto. Qed.
  Lemma lexp_bare f : lexp F f -> args_in f -> lexp F' (bare f).
  Proof.
    induction f using form_ind'; cbn [lexp bare]; try (intros []; fail).
    - intros [B C] D. split; auto. apply terms_bare; auto. eapply args_fs; eauto.
    - destruct v; auto.
    - destruct k; intros B C; try (now destruct B); apply args_bf in C.
      + destruct ops as [|a [|]]; try (now destruct B). inversion H; subst. inversion C; subst. cbn. auto.
      + apply fold_and_Forall. apply fold_and_Forall in B. eapply each_bare; eauto.
      + apply fold_and_Forall. apply fold_and_Forall in B. eapply each_bare; eauto.
      + apply fold_and_Forall. apply fold_and_Forall in B. eapply each_bare; eauto.
  Qed.
  Lemma lcond_bare f : lcond F X f -> args_in f -> lcond F' X (bare f).
  Proof.
    induction f using form_ind'; cbn [lcond bare]; try (intros []; fail).
    - intros (B & C & D) E. apply args_ts in E. split; [auto|split]; auto using terms_bare, consistent_bare.
    - intros (B & C & D & E) Z. assert (A l) by (apply Z; constructor). assert (A r) by (apply Z; constructor).
      split; [auto|split; [|split]]; auto.
      apply (consistent_bare [l; r]); auto.
    - destruct k; intros B C; try (now destruct B); apply args_bf in C;
        try (destruct ops as [|a [|b [|]]]; try (now destruct B); destruct B as [B1 B2];
             inversion C as [|? ? C1 C']; subst; inversion C'; subst; cbn;
             split; now apply lexp_bare).
      eapply each_bare; [|exact B|exact C]. apply Forall_forall. intros f _. apply lexp_bare.
    - destruct k; intros B C; try (now destruct B); apply args_b in C.
      + apply fold_and_Forall in B. apply fold_and_Forall. eapply each_bare; eauto.
      + destruct B as [B' B]. split; auto. apply fold_and_Forall in B. apply fold_and_Forall. eapply each_bare; eauto.
      + destruct ops as [|a [|b [|]]]; try (now destruct B). destruct B as (B' & Ba & Bb).
        inversion H as [|? ? Ha H']; subst. inversion H'; subst.
        inversion C as [|? ? Ca C']; subst. inversion C'; subst. cbn. auto.
    - intros B C. apply IHf; auto. intros t T. apply C. now constructor.
    - intros (B & C & D) E. split; auto. split; auto. apply IHf; auto. intros t T. apply E. now constructor.
  Qed.
End Bare.
