(** Requirement checks of conditions and effects (C35). *)
From Coq Require Import String List Bool Arith Lia.
From Verif Require Import Py Names Reqs Logic Validation Core Lexer TypedList UpdateTags Parser.
From Verif Require Import Built Py_facts Logic_facts Names_facts Spec_Parse GD_facts Domain_facts
  Order_facts CoreEq_facts Derived_facts2 Spec_Reqs Spec_Features.
Import ListNotations.
Open Scope string_scope.
Open Scope list_scope.

(** [ext] contains one of [rs] *)
Definition provided (ext rs : list req) : Prop := exists r, In r rs /\ In r ext.
Lemma any_req_provided l ext : any_req l ext = true <-> provided ext l.
Proof.
  unfold any_req, provided. rewrite existsb_exists. split; intros (r & I & H); exists r;
    (split; [exact I|]); now apply has_In.
Qed.
Lemma has_provided r ext : has r ext = true <-> provided ext [r].
Proof.
  rewrite has_In. unfold provided. split.
  - intros I. exists r. simpl; auto.
  - intros (x & [->|[]] & I). exact I.
Qed.
Lemma provided_dec ext rs : {provided ext rs} + {~ provided ext rs}.
Proof.
  destruct (any_req rs ext) eqn:E.
  - left. now apply any_req_provided.
  - right. rewrite <- any_req_provided, E. discriminate.
Qed.

(** the same context with other requirements *)
Definition with_ext (e : list req) (c : gctx) : gctx := mkCtx e (g_params c) (g_const c) (g_vars c).

(** ** only if *)
Section OnlyIf.
  Variable c : gctx.
  Lemma mapR_In {A B} (f : A -> res B) l l' x : mapR f l = Ok l' -> In x l -> exists y, f x = Ok y.
  Proof.
    intros H I. apply mapR_Ok in H. induction H; destruct I; subst; eauto.
  Qed.
  Lemma check_provided b e (k : res form) f (rs : list req) :
    (b = true -> provided (g_ext c) rs) -> (check b e ;; k) = Ok f -> provided (g_ext c) rs.
  Proof. intros H C. apply bind_Ok in C as ([] & C & _). apply check_Ok in C. auto. Qed.
  Lemma atomic_eq_provided args f : atomic_eq c args = Ok f -> provided (g_ext c) [EQUALITY].
  Proof.
    unfold atomic_eq. destruct (terms args) as [[|a [|b [|]]]|]; try discriminate. intros H.
    apply bind_Ok in H as (ra & _ & H). apply bind_Ok in H as (rb & _ & H).
    eapply check_provided; [|exact H]. apply has_provided.
  Qed.
  Lemma keyword_atom w args f : In w ["and"; "or"; "not"; "imply"; "exists"; "forall"; "oneof"; "when"] ->
    atomic_pred c w args <> Ok f.
  Proof.
    intros I H. unfold atomic_pred in H. apply bind_Ok in H as (ps & _ & H).
    apply bind_Ok in H as (rs & _ & H). apply bind_Ok in H as (ts & _ & H).
    unfold mk_pred in H. apply bind_Ok in H as (n & N & _).
    simpl in I. decompose [or] I; subst; try discriminate; contradiction.
  Qed.
  Lemma gd_provided x rs : cond_needs x rs -> forall f, gd c x = Ok f -> provided (g_ext c) rs.
  Proof.
    induction 1 as [args|x y|vs x|vs x|n l|l|w args x rs W I N IH|w vs x rs W N IH];
      intros f H; cbn -[any_req] in H.
    - apply bind_Ok in H as (fs & _ & H). eapply check_provided; [|exact H].
      apply any_req_provided.
    - apply bind_Ok in H as (g & _ & H). apply bind_Ok in H as (g' & _ & H).
      eapply check_provided; [|exact H]. apply any_req_provided.
    - apply bind_Ok in H as (g & _ & H). apply bind_Ok in H as (g' & _ & H).
      eapply check_provided; [|exact H]. apply any_req_provided.
    - apply bind_Ok in H as (g & _ & H). apply bind_Ok in H as (g' & _ & H).
      eapply check_provided; [|exact H]. apply any_req_provided.
    - eapply atomic_eq_provided; exact H.
    - eapply atomic_eq_provided; exact H.
    - simpl in W. decompose [or] W; subst; cbn -[any_req] in H; try contradiction.
      + apply bind_Ok in H as (fs & Mp & _). destruct (mapR_In _ _ _ _ Mp I); eauto.
      + apply bind_Ok in H as (fs & Mp & _). destruct (mapR_In _ _ _ _ Mp I); eauto.
      + destruct args as [|x' [|]]; try discriminate. destruct I as [->|[]].
        apply bind_Ok in H as (g & G & _). eauto.
      + destruct args as [|x' [|y' [|]]]; try discriminate.
        apply bind_Ok in H as (g & G & H). apply bind_Ok in H as (g' & G' & _).
        destruct I as [->|[->|[]]]; eauto.
    - simpl in W. decompose [or] W; subst; cbn -[any_req] in H; try contradiction.
      + apply bind_Ok in H as (g & _ & H). apply bind_Ok in H as (g' & G & H). eauto.
      + apply bind_Ok in H as (g & _ & H). apply bind_Ok in H as (g' & G & H). eauto.
  Qed.

  Definition is_eq (x : sexp) : Prop :=
    (exists n l, x = SList (SAtom (TOp "=") :: name_sx n :: l))
    \/ (exists l, x = SList (SAtom (TOp "=") :: SAtom QMARK :: l)).
  (** an effect that is accepted as an atomic effect, or an and of them, and needs something, is
      an equality or contains one *)
  Lemma atomic_needs x rs : eff_needs x rs -> forall f, atomic_formula_term c x = Ok f ->
    provided (g_ext c) rs.
  Proof.
    intros N f H. destruct N as [args|n l|l|w args x rs W I N|vs x rs N|x y rs N|x y rs N].
    - exfalso; eapply (keyword_atom "oneof"); [|exact H]; simpl; tauto.
    - eapply atomic_eq_provided; exact H.
    - eapply atomic_eq_provided; exact H.
    - exfalso; eapply (keyword_atom w); [|exact H]. simpl in *; tauto.
    - exfalso; eapply (keyword_atom "forall"); [|exact H]; simpl; tauto.
    - exfalso; eapply (keyword_atom "when"); [|exact H]; simpl; tauto.
    - exfalso; eapply (keyword_atom "when"); [|exact H]; simpl; tauto.
  Qed.
  Lemma p_effect_needs x rs : eff_needs x rs -> forall f, p_effect c x = Ok f ->
    provided (g_ext c) rs.
  Proof.
    intros N f H. destruct N as [args|n l|l|w args x rs W I N|vs x rs N|x y rs N|x y rs N].
    - exfalso; eapply (keyword_atom "oneof"); [|exact H]; simpl; tauto.
    - eapply atomic_eq_provided; exact H.
    - eapply atomic_eq_provided; exact H.
    - simpl in W. decompose [or] W; subst; try contradiction.
      + exfalso; eapply (keyword_atom "and"); [|exact H]; simpl; tauto.
      + exfalso; eapply (keyword_atom "oneof"); [|exact H]; simpl; tauto.
      + cbn in H. destruct args as [|x' [|]]; try discriminate. destruct I as [->|[]].
        apply bind_Ok in H as (g & G & _). eapply atomic_needs; eauto.
    - exfalso; eapply (keyword_atom "forall"); [|exact H]; simpl; tauto.
    - exfalso; eapply (keyword_atom "when"); [|exact H]; simpl; tauto.
    - exfalso; eapply (keyword_atom "when"); [|exact H]; simpl; tauto.
  Qed.
  Lemma cond_effect_needs x rs : eff_needs x rs -> forall f, cond_effect c x = Ok f ->
    provided (g_ext c) rs.
  Proof.
    intros N f H. destruct N as [args|n l|l|w args x rs W I N|vs x rs N|x y rs N|x y rs N].
    4:{ destruct (String.eqb_spec w "and") as [->|NW].
        - cbn in H. apply bind_Ok in H as (fs & Mp & _). destruct (mapR_In _ _ _ _ Mp I) as [g G].
          eapply p_effect_needs; eauto.
        - unfold cond_effect, name_sx in H. destruct (String.eqb_spec w "and"); [contradiction|].
          eapply p_effect_needs; [|exact H]. econstructor; eauto. }
    all: eapply p_effect_needs; [|exact H].
    all: first [now apply en_when_cond|now apply en_when_eff|now apply en_body|now constructor].
  Qed.
  Lemma effect_needs x rs : eff_needs x rs -> forall top f, effect c top x = Ok f ->
    provided (g_ext c) rs.
  Proof.
    induction 1 as [args|n l|l|w args x rs W I N IH|vs x rs N IH|x y rs N|x y rs N IH];
      intros top f H.
    - cbn [effect name_sx] in H. destruct top; cbn in H;
        (destruct args; [discriminate|]); apply bind_Ok in H as (fs & _ & H);
        (eapply check_provided; [|exact H]); apply has_provided.
    - eapply atomic_eq_provided; exact H.
    - eapply atomic_eq_provided; exact H.
    - simpl in W. decompose [or] W; subst; try contradiction.
      + destruct top; cbn in H.
        * apply bind_Ok in H as (fs & Mp & _). destruct (mapR_In _ _ _ _ Mp I); eauto.
        * exfalso; eapply (keyword_atom "and"); [|exact H]; simpl; tauto.
      + destruct top; cbn in H;
          (destruct args; [destruct I|]); apply bind_Ok in H as (fs & Mp & H);
          (destruct (mapR_In _ _ _ _ Mp I); eauto).
      + assert (H' : p_effect c (SList (name_sx "not" :: args)) = Ok f) by (destruct top; exact H).
        eapply p_effect_needs; [|exact H']. econstructor; eauto.
    - destruct top; cbn in H; apply bind_Ok in H as (tl & _ & H);
        apply bind_Ok in H as (g & G & H); eauto.
    - destruct top; cbn in H; apply bind_Ok in H as (g & G & H); eapply gd_provided; eauto.
    - destruct top; cbn in H; apply bind_Ok in H as (g & G & H); apply bind_Ok in H as (g' & G' & H);
        eapply cond_effect_needs; eauto.
  Qed.
End OnlyIf.

(** ** otherwise: accepted apart from the requirements, then accepted with the same result, or
    PDDLMissingRequirementError for something that is needed: it names the first of the
    requirements of which one is needed *)
Definition verdict (ext : list req) (needs : list req -> Prop) {A} (f : A) (r : res A) : Prop :=
  r = Ok f
  \/ (exists q rs, r = Err (PDDLMissingRequirementError q) /\ needs (q :: rs) /\ ~ provided ext (q :: rs)).

Section Otherwise.
  Variables (c : gctx) (e' : list req).
  Let ext := g_ext c.
  Let c' := with_ext e' c.

  Lemma mapR_verdict {A} (needs : A -> list req -> Prop) (g h : A -> res form) l fs :
    Forall (fun x => forall f, g x = Ok f -> verdict ext (needs x) f (h x)) l ->
    mapR g l = Ok fs ->
    verdict ext (fun rs => exists x, In x l /\ needs x rs) fs (mapR h l).
  Proof.
    intros F H. apply mapR_Ok in H. revert F. induction H as [|x y l l' G R IH]; intros F.
    - left. reflexivity.
    - inversion F; subst. cbn [mapR]. destruct (H1 _ G) as [->|(q & rs & -> & N & P)].
      + destruct (IH H2) as [->|(q & rs & -> & (z & I & N) & P)].
        * left. reflexivity.
        * right. exists q, rs. split; [reflexivity|]. split; auto. exists z. simpl; auto.
      + right. exists q, rs. split; [reflexivity|]. split; auto. exists x. simpl; auto.
  Qed.
  Lemma mapR_same {A B} (f g : A -> res B) l : (forall x, f x = g x) -> mapR f l = mapR g l.
  Proof. intros E. induction l; cbn [mapR]; [reflexivity|]. now rewrite E, IHl. Qed.
  Lemma resolve_ext p : resolve c p = resolve c' p.
  Proof. reflexivity. Qed.
  Lemma cov_ext p : constant_or_variable c p = constant_or_variable c' p.
  Proof. reflexivity. Qed.
  Lemma atomic_pred_ext n args : atomic_pred c n args = atomic_pred c' n args.
  Proof. reflexivity. Qed.
  Lemma f_head_ext s : f_head c s = f_head c' s.
  Proof. reflexivity. Qed.
  Lemma f_exp_ext s : f_exp c s = f_exp c' s.
  Proof.
    induction s as [t|l IH] using sexp_ind'; [destruct t; reflexivity|].
    destruct l as [|[[]|] args]; try reflexivity. cbn [f_exp].
    inversion IH; subst. destruct (arith_op s (length args)); [|reflexivity].
    assert (E : mapR (f_exp c) args = mapR (f_exp c') args).
    { clear - H2. induction H2; cbn [mapR]; [reflexivity|]. now rewrite H, IHForall. }
    now rewrite E.
  Qed.
  Lemma atomic_eq_verdict args f : atomic_eq c' args = Ok f ->
    verdict ext (eq [EQUALITY]) f (atomic_eq c args).
  Proof.
    unfold atomic_eq. destruct (terms args) as [[|a [|b [|]]]|]; try discriminate. intros H.
    apply bind_Ok in H as (ra & RA & H). apply bind_Ok in H as (rb & RB & H).
    apply bind_Ok in H as ([] & _ & H). apply bind_Ok in H as (l & L & H).
    apply bind_Ok in H as (r & R & H).
    rewrite resolve_ext, RA. cbn [bind]. rewrite resolve_ext, RB. cbn [bind].
    destruct (has EQUALITY (g_ext c)) eqn:E; cbn [check bind].
    - rewrite cov_ext, L. cbn [bind]. rewrite cov_ext, R. cbn [bind]. left. exact H.
    - right. exists EQUALITY, []. split; [reflexivity|]. split; auto. rewrite <- has_provided.
      fold ext in E. rewrite E. discriminate.
  Qed.

  Lemma verdict_bind {A B} (needs needs' : list req -> Prop) (r : res A) (a : A) (k : A -> res B) b :
    verdict ext needs a r -> (forall rs, needs rs -> needs' rs) ->
    verdict ext needs' b (k a) -> verdict ext needs' b (bind r k).
  Proof.
    intros [->|(q & rs & -> & N & P)] S V; cbn [bind]; [exact V|].
    right. exists q, rs. auto.
  Qed.
  Lemma verdict_check {B} (needs' : list req -> Prop) q rs (b : bool) (r : res B) f :
    (b = true <-> provided ext (q :: rs)) -> needs' (q :: rs) -> verdict ext needs' f r ->
    verdict ext needs' f (check b (PDDLMissingRequirementError q) ;; r).
  Proof.
    intros E N V. destruct b; cbn [check bind]; [exact V|].
    right. exists q, rs. split; [reflexivity|]. split; auto. rewrite <- E. discriminate.
  Qed.
  Lemma verdict_weaken {A} (needs needs' : list req -> Prop) (f : A) r :
    (forall rs, needs rs -> needs' rs) -> verdict ext needs f r -> verdict ext needs' f r.
  Proof. intros S [->|(q & rs & -> & N & P)]; [left|right]; auto. exists q, rs; auto. Qed.
  Lemma starts_term_inv args : starts_term args = true ->
    (exists n l, args = name_sx n :: l) \/ (exists l, args = SAtom QMARK :: l).
  Proof.
    destruct args as [|[[]|] l]; try discriminate; intros _; [right|left]; repeat eexists.
  Qed.

  Lemma gd_verdict x : forall f, gd c' x = Ok f -> verdict ext (cond_needs x) f (gd c x).
  Proof.
    induction x as [t|l IH] using sexp_ind'; intros f; [discriminate|].
    destruct l as [|[[]|] args]; try discriminate; inversion IH as [|? ? _ IHa]; subst; clear IH.
    - cbn [gd]. destruct (String.eqb_spec s "or") as [->|N1].
      { intros H. apply bind_Ok in H as (ops & Mp & H). apply bind_Ok in H as ([] & _ & H).
        eapply verdict_bind; [eapply mapR_verdict; [exact IHa|exact Mp]| |].
        - intros rs (y & I & N). apply (cn_part "or" _ y); simpl; auto.
        - eapply verdict_check; [apply any_req_provided|constructor|]. now left. }
      destruct (String.eqb_spec s "not") as [->|N2].
      { destruct args as [|x [|]]; try discriminate. intros H. apply bind_Ok in H as (g & G & H).
        inversion IHa; subst. eapply verdict_bind; [apply H2; exact G| |now left].
        intros rs N. apply (cn_part "not" _ x); simpl; auto. }
      destruct (String.eqb_spec s "and") as [->|N3].
      { intros H. apply bind_Ok in H as (ops & Mp & H).
        eapply verdict_bind; [eapply mapR_verdict; [exact IHa|exact Mp]| |now left].
        intros rs (y & I & N). apply (cn_part "and" _ y); simpl; auto. }
      destruct (String.eqb_spec s "imply") as [->|N4].
      { destruct args as [|x [|y [|]]]; try discriminate. intros H.
        apply bind_Ok in H as (g & G & H). apply bind_Ok in H as (h & G' & H).
        apply bind_Ok in H as ([] & _ & H).
        inversion IHa as [|? ? Hx I2]; subst. inversion I2 as [|? ? Hy _]; subst.
        eapply verdict_bind; [apply Hx; exact G| |].
        { intros rs N. apply (cn_part "imply" _ x); simpl; auto. }
        eapply verdict_bind; [apply Hy; exact G'| |].
        { intros rs N. apply (cn_part "imply" _ y); simpl; auto. }
        eapply verdict_check; [apply any_req_provided|constructor|]. now left. }
      destruct (String.eqb_spec s "exists") as [->|N5].
      { cbn [orb]. destruct args as [|[|vs] [|x [|]]]; try discriminate. intros H.
        apply bind_Ok in H as (tl & TL & H). apply bind_Ok in H as (g & G & H).
        apply bind_Ok in H as ([] & _ & H).
        inversion IHa as [|? ? _ I2]; subst. inversion I2 as [|? ? Hx _]; subst.
        change (g_vars c') with (g_vars c) in TL. rewrite TL. cbn [bind].
        eapply verdict_bind; [apply Hx; exact G| |].
        { intros rs N. apply (cn_body "exists"); simpl; auto. }
        eapply verdict_check; [apply any_req_provided|constructor|]. now left. }
      destruct (String.eqb_spec s "forall") as [->|N6].
      { cbn [orb]. destruct args as [|[|vs] [|x [|]]]; try discriminate. intros H.
        apply bind_Ok in H as (tl & TL & H). apply bind_Ok in H as (g & G & H).
        apply bind_Ok in H as ([] & _ & H).
        inversion IHa as [|? ? _ I2]; subst. inversion I2 as [|? ? Hx _]; subst.
        change (g_vars c') with (g_vars c) in TL. rewrite TL. cbn [bind].
        eapply verdict_bind; [apply Hx; exact G| |].
        { intros rs N. apply (cn_body "forall"); simpl; auto. }
        eapply verdict_check; [apply any_req_provided|constructor|]. now left. }
      cbn [orb]. intros H. left. rewrite atomic_pred_ext. exact H.
    - cbn [gd]. destruct (String.eqb_spec s "=") as [->|N1]; cbn [andb].
      + destruct (starts_term args) eqn:ST.
        * intros H. eapply verdict_weaken; [|apply atomic_eq_verdict; exact H].
          intros rs <-. destruct (starts_term_inv _ ST) as [(n & l & ->)|(l & ->)]; constructor.
        * destruct args as [|x [|y [|]]]; try discriminate. intros H. left.
          rewrite !f_exp_ext. exact H.
      + intros H. left. destruct (comparison s); [|exact H].
        destruct args as [|x [|y [|]]]; try discriminate. rewrite !f_exp_ext. exact H.
  Qed.

  Lemma terms_starts args a b : terms args = Some [a; b] -> starts_term args = true.
  Proof.
    destruct args as [|[[]|] l]; cbn [terms]; try discriminate; try reflexivity.
  Qed.
  Lemma atomic_formula_term_verdict x f : atomic_formula_term c' x = Ok f ->
    verdict ext (eff_needs x) f (atomic_formula_term c x).
  Proof.
    destruct x as [|[|[[]|] l]]; cbn [atomic_formula_term]; try discriminate.
    - intros H. left. rewrite atomic_pred_ext. exact H.
    - destruct (String.eqb_spec s "=") as [->|]; [|discriminate]. intros H.
      assert (ST : starts_term l = true).
      { unfold atomic_eq in H. destruct (terms l) as [[|a [|b [|]]]|] eqn:T; try discriminate.
        eapply terms_starts; eauto. }
      eapply verdict_weaken; [|apply atomic_eq_verdict; exact H].
      intros rs <-. destruct (starts_term_inv _ ST) as [(n & r & ->)|(r & ->)]; constructor.
  Qed.
  Lemma p_effect_verdict x f : p_effect c' x = Ok f -> verdict ext (eff_needs x) f (p_effect c x).
  Proof.
    destruct x as [|[|[[]|] args]]; try apply atomic_formula_term_verdict. unfold p_effect.
    destruct (String.eqb_spec s "not") as [->|N].
    - destruct args as [|x [|]]; try discriminate. intros H. apply bind_Ok in H as (g & G & H).
      eapply verdict_bind; [apply atomic_formula_term_verdict; exact G| |now left].
      intros rs Nd. apply (en_part "not" _ x); simpl; auto.
    - destruct (assign_op s).
      + destruct args as [|h [|e [|]]]; try discriminate. rewrite f_head_ext, f_exp_ext.
        intros H. left. exact H.
      + apply atomic_formula_term_verdict.
  Qed.
  Lemma cond_effect_verdict x f : cond_effect c' x = Ok f ->
    verdict ext (eff_needs x) f (cond_effect c x).
  Proof.
    destruct x as [|[|[[]|] args]]; try apply p_effect_verdict. unfold cond_effect.
    destruct (String.eqb_spec s "and") as [->|N]; [|apply p_effect_verdict].
    intros H. apply bind_Ok in H as (ops & Mp & H).
    eapply verdict_bind; [eapply (mapR_verdict eff_needs); [|exact Mp]| |now left].
    - apply Forall_forall. intros x _ y. apply p_effect_verdict.
    - intros rs (y & I & Nd). apply (en_part "and" _ y); simpl; auto.
  Qed.
  Lemma effect_verdict x : forall top f, effect c' top x = Ok f ->
    verdict ext (eff_needs x) f (effect c top x).
  Proof.
    induction x as [t|l IH] using sexp_ind'; intros top f; [apply p_effect_verdict|].
    destruct l as [|[[]|] args]; try (apply p_effect_verdict).
    inversion IH as [|? ? _ IHa]; subst; clear IH. cbn [effect].
    destruct (String.eqb_spec s "and") as [->|N1].
    { destruct top; cbn [andb].
      - intros H. apply bind_Ok in H as (ops & Mp & H).
        eapply verdict_bind; [eapply (mapR_verdict eff_needs); [|exact Mp]| |now left].
        + eapply Forall_impl; [|exact IHa]. simpl. eauto.
        + intros rs (y & I & Nd). apply (en_part "and" _ y); simpl; auto.
      - apply p_effect_verdict. }
    rewrite Bool.andb_false_r. destruct (String.eqb_spec s "forall") as [->|N2].
    { destruct args as [|[|vs] [|x [|]]]; try discriminate. intros H.
      apply bind_Ok in H as (tl & TL & H). apply bind_Ok in H as (g & G & H).
      inversion IHa as [|? ? _ I2]; subst. inversion I2 as [|? ? Hx _]; subst.
      change (g_vars c') with (g_vars c) in TL. rewrite TL. cbn [bind].
      eapply verdict_bind; [apply Hx; exact G| |now left].
      intros rs N. now apply en_body. }
    destruct (String.eqb_spec s "when") as [->|N3].
    { destruct args as [|x [|y [|]]]; try discriminate. intros H.
      apply bind_Ok in H as (g & G & H). apply bind_Ok in H as (h & G' & H).
      eapply verdict_bind; [apply gd_verdict; exact G| |].
      { intros rs N. now apply en_when_cond. }
      eapply verdict_bind; [apply cond_effect_verdict; exact G'| |now left].
      intros rs N. now apply en_when_eff. }
    destruct (String.eqb_spec s "oneof") as [->|N4].
    { destruct args as [|x args]; try discriminate. intros H.
      apply bind_Ok in H as (ops & Mp & H). apply bind_Ok in H as ([] & _ & H).
      eapply verdict_bind; [eapply (mapR_verdict eff_needs); [|exact Mp]| |].
      - eapply Forall_impl; [|exact IHa]. simpl. eauto.
      - intros rs (y & I & Nd). apply (en_part "oneof" _ y); simpl; auto.
      - eapply verdict_check; [apply has_provided|constructor|]. now left. }
    apply p_effect_verdict.
  Qed.
End Otherwise.

(** ** the domain *)
Lemma provided_met declared rs : provided (extend_reqs declared) rs <-> met declared rs.
Proof.
  unfold provided, met, in_force. split; intros (r & I & H); exists r; (split; [exact I|]);
    now apply extend_exact.
Qed.

Definition is_def (x : sexp) : Prop :=
  (exists b, x = section_sx ":action" b) \/ (exists b, x = section_sx ":derived" b).
Lemma def_needs_def x rs : def_needs x rs -> is_def x.
Proof. intros []; [left|left|left|left|right]; eexists; reflexivity. Qed.
Lemma section_keeps k l o r x : section k l = (o, r) -> In x l -> is_def x ->
  k <> ":action" -> k <> ":derived" -> In x r.
Proof.
  intros H I D N1 N2. unfold section in H. destruct l as [|y l']; [destruct I|].
  destruct y as [|[|k' body]]; try (injection H as <- <-; exact I).
  destruct (is_kw k k') eqn:K; injection H as <- <-; [|exact I].
  destruct I as [E|I]; [exfalso|exact I].
  destruct k' as [[]|]; try discriminate. apply String.eqb_eq in K. subst s.
  destruct D as [(b & ->)|(b & ->)]; injection E as E _; congruence.
Qed.

Lemma structure_def_ext x st st' y : structure_def x st = (st', Ok y) -> s_ext st' = s_ext st.
Proof.
  intros H. apply structure_def_st in H as [(body & a & -> & -> & H)|(body & d & -> & -> & H)].
  - apply action_def_st in H as (n & ps & b & vs & r & _ & H & _).
    apply action_parameters_st in H as (tl & vars & _ & _ & -> & _). reflexivity.
  - apply derived_def_st in H as [-> _]. reflexivity.
Qed.
Lemma runs_all_inv {A B} (f : A -> M B) (I : dstate -> Prop) st l ys st' x :
  runs f st l ys st' -> I st -> (forall x s s' z, I s -> f x s = (s', Ok z) -> I s') ->
  In x l -> exists s s' y, I s /\ In y ys /\ f x s = (s', Ok y).
Proof.
  induction 1 as [|st x' st1 z l ys st2 F R IH]; intros I0 K Y; [destruct Y|].
  destruct Y as [->|Y].
  - exists st, st1, z. simpl. auto.
  - destruct IH as (s & s' & y & Is & Hy & Hf); eauto. exists s, s', y. simpl. auto.
Qed.
Lemma def_needs_provided x rs st st' y : def_needs x rs -> structure_def x st = (st', Ok y) ->
  provided (s_ext st) rs.
Proof.
  intros N H. apply structure_def_st in H as [(body & a & -> & -> & H)|(body & d & -> & -> & H)].
  - apply action_def_st in H as (n & ps & b & vs & r & -> & P & B & _).
    apply action_parameters_st in P as (tl & vars & _ & _ & E & _).
    assert (E' : s_ext st = s_ext st') by (rewrite E; reflexivity). rewrite E'. clear E E'.
    inversion N; subst; cbn in B.
    + apply bind_Ok in B as (f & F & _).
      eapply (gd_provided (domain_ctx st')); [eassumption|].
      destruct x as [|[|]]; [exact F|match goal with H : cond_needs (SList []) _ |- _ => inversion H end|exact F].
    + apply bind_Ok in B as (f & _ & B). apply bind_Ok in B as (g & G & _).
      eapply (effect_needs (domain_ctx st')); [eassumption|].
      destruct y as [|[|]]; [exact G|match goal with H : eff_needs (SList []) _ |- _ => inversion H end|exact G].
    + apply bind_Ok in B as (f & _ & B). discriminate.
    + apply bind_Ok in B as (f & _ & B). discriminate.
  - inversion N; subst. unfold derived_def in H.
    apply bindM_Ok in H as (st1 & hd & A & H). apply ret_Ok in A as [-> A].
    apply bindM_Ok in H as (st2 & c & G & H). apply reads_Ok in G as [-> G].
    eapply (gd_provided (domain_ctx st)); eassumption.
Qed.

Lemma requirements_ext o1 st st1 rs : s_ext st = [] -> optM requirements o1 st = (st1, Ok rs) ->
  forall r, In r (s_ext st1) <-> In r (extend_reqs (dedup req_eqb (opt_list rs))).
Proof.
  intros E0 H r. apply optM_Ok in H. destruct o1 as [l|].
  - destruct H as (a & H & ->). apply requirements_st in H as (ks & K & -> & ->).
    cbn [opt_list set_ext s_ext]. rewrite !extend_exact.
    assert (D : forall q, In q ks <-> In q (dedup req_eqb (dedup req_eqb ks))).
    { intros q. rewrite <- !has_In. unfold has. now rewrite !(memb_dedup _ req_eqb_equiv). }
    split; (intros [I|(q & I & J)]; [left; now apply D|right; exists q; split; [now apply D|auto]]).
  - destruct H as [-> ->]. cbn [opt_list]. rewrite E0. split; [intros []|]. rewrite extend_exact.
    intros [[]|(q & [] & _)].
Qed.
Lemma sections_ext {A} (f : list sexp -> M A) o st st' r :
  (forall l a st', f l st = (st', Ok a) -> s_ext st' = s_ext st) ->
  optM f o st = (st', Ok r) -> s_ext st' = s_ext st.
Proof.
  intros K H. apply optM_Ok in H. destruct o as [l|].
  - destruct H as (a & H & _). eauto.
  - now destruct H as [-> _].
Qed.
Lemma types_ext l a st st' : types_section l st = (st', Ok a) -> s_ext st' = s_ext st.
Proof. intros H. apply types_st in H as [-> _]. reflexivity. Qed.
Lemma constants_ext l a st st' : constants_section l st = (st', Ok a) -> s_ext st' = s_ext st.
Proof. intros H. apply constants_st in H as (d & _ & -> & _). reflexivity. Qed.
Lemma predicates_ext l a st st' : predicates_section l st = (st', Ok a) -> s_ext st' = s_ext st.
Proof. intros H. apply predicates_st in H as (_ & _ & ->). reflexivity. Qed.

Lemma domain_needs_met s n sections d def rs :
  domain_text s n sections -> parse_domain_fresh s = Ok d ->
  In def sections -> def_needs def rs -> met (d_reqs d) rs.
Proof.
  intros T P I N. unfold parse_domain_fresh in P.
  destruct (parse_domain s init_dstate) as [st' r] eqn:E. cbn [snd] in P. subst r.
  apply parse_domain_inv in E as (n' & l0 & T' & E).
  unfold domain_text in *. rewrite T in T'. injection T' as _ <-.
  apply domain_rule_inv in E
    as (o1 & l1 & st1 & rq & o2 & l2 & st2 & ty & o3 & l3 & st3 & cs & o4 & l4 & st4 & ps & o5
        & l5 & fs & st6 & xs & S1 & H1 & S2 & H2 & S3 & H3 & S4 & H4 & S5 & H5 & H6 & _ & D).
  apply mk_domain_inv in D as (_ & _ & R & _).
  pose proof (def_needs_def _ _ N) as DD.
  assert (I5 : In def l5).
  { eapply section_keeps; [exact S5| |exact DD|discriminate|discriminate].
    eapply section_keeps; [exact S4| |exact DD|discriminate|discriminate].
    eapply section_keeps; [exact S3| |exact DD|discriminate|discriminate].
    eapply section_keeps; [exact S2| |exact DD|discriminate|discriminate].
    eapply section_keeps; [exact S1| |exact DD|discriminate|discriminate]. exact I. }
  apply mapM_runs in H6.
  destruct (runs_all_inv structure_def (fun st => s_ext st = s_ext st4) _ _ _ _ def H6 eq_refl)
    as (s0 & s1 & y & Es & _ & F); [|exact I5|].
  { intros x a b z Ea Eb. rewrite <- Ea. eapply structure_def_ext; eauto. }
  apply (def_needs_provided _ _ _ _ _ N) in F. rewrite Es in F.
  assert (E4 : s_ext st4 = s_ext st1).
  { erewrite (sections_ext predicates_section); [|intros; eapply predicates_ext; eauto|exact H4].
    erewrite (sections_ext constants_section); [|intros; eapply constants_ext; eauto|exact H3].
    erewrite (sections_ext types_section); [|intros; eapply types_ext; eauto|exact H2].
    reflexivity. }
  rewrite E4 in F. apply provided_met. rewrite R. destruct F as (q & Q1 & Q2). exists q.
  split; auto. now apply (requirements_ext _ _ _ _ (eq_refl : s_ext init_dstate = []) H1).
Qed.

(** ** the same text with other requirements *)
Definition low (e : list req) (st : dstate) : dstate := set_ext e st.
Definition same_or_missing {A} (e : list req) (m : M A) (st : dstate) : Prop :=
  forall st' a, m st = (st', Ok a) ->
    m (low e st) = (low e st', Ok a) \/ exists q, snd (m (low e st)) = Err (PDDLMissingRequirementError q).

Lemma som_ret {A} e (r : res A) st : same_or_missing e (ret r) st.
Proof. intros st' a H. apply ret_Ok in H as [-> ->]. left. reflexivity. Qed.
Lemma som_bind {A B} e (m : M A) (k : A -> M B) st :
  same_or_missing e m st ->
  (forall st1 a, m st = (st1, Ok a) -> same_or_missing e (k a) st1) ->
  same_or_missing e (bindM m k) st.
Proof.
  intros Hm Hk st' b H. apply bindM_Ok in H as (st1 & a & Ha & Hb).
  unfold bindM. destruct (Hm _ _ Ha) as [->|E].
  - exact (Hk _ _ Ha _ _ Hb).
  - right. destruct E as (q & E). exists q. destruct (m (low e st)) as [s r]. cbn [snd] in E. rewrite E. reflexivity.
Qed.
Lemma som_reads {A} e (f : dstate -> res A) st :
  (forall a, f st = Ok a -> f (low e st) = Ok a \/ exists q, f (low e st) = Err (PDDLMissingRequirementError q)) ->
  same_or_missing e (reads f) st.
Proof.
  intros Hf st' a H. apply reads_Ok in H as [-> H]. unfold reads.
  destruct (Hf _ H) as [->|(q & ->)]; [left|right; exists q]; reflexivity.
Qed.
Lemma som_modify e f st : f (low e st) = low e (f st) -> same_or_missing e (modify f) st.
Proof. intros E st' a H. unfold modify in *. injection H as <- <-. left. now rewrite E. Qed.
Lemma som_optM {A} e (f : list sexp -> M A) o st :
  (forall l, same_or_missing e (f l) st) -> same_or_missing e (optM f o) st.
Proof.
  intros H. destruct o; cbn [optM]; [|apply som_ret]. apply som_bind; auto.
  intros. apply som_ret.
Qed.
Lemma som_mapM {A B} e (f : A -> M B) l : (forall x st, same_or_missing e (f x) st) ->
  forall st, same_or_missing e (mapM f l) st.
Proof.
  intros H. induction l as [|x l IH]; intros st; cbn [mapM]; [apply som_ret|].
  apply som_bind; auto. intros. apply som_bind; auto. intros. apply som_ret.
Qed.
Lemma verdict_or ext needs {A} (f : A) r : verdict ext needs f r ->
  r = Ok f \/ exists q, r = Err (PDDLMissingRequirementError q).
Proof. intros [->|(q & rs & -> & _)]; eauto. Qed.
Lemma ctx_low e st : domain_ctx st = with_ext (s_ext st) (domain_ctx (low e st)).
Proof. reflexivity. Qed.

Lemma gd_low e st x f : gd (domain_ctx st) x = Ok f ->
  gd (domain_ctx (low e st)) x = Ok f
  \/ exists q, gd (domain_ctx (low e st)) x = Err (PDDLMissingRequirementError q).
Proof. rewrite (ctx_low e). intros H. apply gd_verdict in H. eapply verdict_or; exact H. Qed.
Lemma effect_low e st t x f : effect (domain_ctx st) t x = Ok f ->
  effect (domain_ctx (low e st)) t x = Ok f
  \/ exists q, effect (domain_ctx (low e st)) t x = Err (PDDLMissingRequirementError q).
Proof. rewrite (ctx_low e). intros H. apply effect_verdict in H. eapply verdict_or; exact H. Qed.
Lemma emptyor_pregd_low e st x f : emptyor_pregd (domain_ctx st) x = Ok f ->
  emptyor_pregd (domain_ctx (low e st)) x = Ok f
  \/ exists q, emptyor_pregd (domain_ctx (low e st)) x = Err (PDDLMissingRequirementError q).
Proof. destruct x as [|[|]]; cbn [emptyor_pregd]; auto using gd_low. Qed.
Lemma emptyor_effect_low e st x f : emptyor_effect (domain_ctx st) x = Ok f ->
  emptyor_effect (domain_ctx (low e st)) x = Ok f
  \/ exists q, emptyor_effect (domain_ctx (low e st)) x = Err (PDDLMissingRequirementError q).
Proof. destruct x as [|[|]]; cbn [emptyor_effect]; auto using effect_low. Qed.
Lemma action_body_low e st l b : action_body l st = Ok b ->
  action_body l (low e st) = Ok b \/ exists q, action_body l (low e st) = Err (PDDLMissingRequirementError q).
Proof.
  unfold action_body. destruct l as [|k1 [|x [|k2 [|y [|]]]]]; try discriminate.
  - destruct (is_kw ":precondition" k1).
    + intros H. apply bind_Ok in H as (? & _ & H). discriminate.
    + destruct (is_kw ":effect" k1); [|discriminate].
      intros H. apply bind_Ok in H as (? & _ & H). discriminate.
  - destruct (is_kw ":precondition" k1 && is_kw ":effect" k2); [|discriminate].
    intros H. apply bind_Ok in H as (p & P & H). apply bind_Ok in H as (f & F & H).
    destruct (emptyor_pregd_low e _ _ _ P) as [->|(q & ->)]; cbn [bind]; [|eauto].
    destruct (emptyor_effect_low e _ _ _ F) as [->|(q & ->)]; cbn [bind]; eauto.
Qed.
Lemma structure_low e x st : same_or_missing e (structure_def x) st.
Proof.
  unfold structure_def. destruct x as [|[|k body]]; try apply som_ret.
  destruct (is_kw ":action" k).
  - apply som_bind; [|intros; apply som_ret]. unfold action_def.
    destruct body as [|[[]|] [|k' [|[|ps] body]]]; try apply som_ret.
    destruct (is_kw ":parameters" k'); [|apply som_ret].
    apply som_bind.
    + unfold action_parameters. apply som_bind; [apply som_ret|]. intros. apply som_bind; [apply som_ret|].
      intros. apply som_bind; [now apply som_modify|]. intros. apply som_ret.
    + intros. apply som_bind; [|intros; apply som_ret]. apply som_reads. intros.
      now apply action_body_low.
  - destruct (is_kw ":derived" k); [|apply som_ret].
    apply som_bind; [|intros; apply som_ret]. unfold derived_def.
    destruct body as [|h [|x [|]]]; try apply som_ret.
    apply som_bind; [apply som_ret|]. intros. apply som_bind.
    + apply som_reads. intros. now apply gd_low.
    + intros. apply som_reads. intros b H'. left. exact H'.
Qed.
Lemma types_low e l st : same_or_missing e (types_section l) st.
Proof.
  unfold types_section. apply som_bind; [apply som_ret|]. intros.
  apply som_bind; [|intros; apply som_bind].
  - apply som_reads. intros [] C. cbn [low set_ext s_ext] in *.
    destruct (negb _ || has TYPING e); cbn [check]; eauto.
  - apply som_reads. intros b H'. left. exact H'.
  - intros. apply som_bind; [now apply som_modify|]. intros. apply som_ret.
Qed.

(** everything after the requirements section, without building the domain *)
Definition sections_run (l1 : list sexp) : M (list (action + derived)) :=
  let '(o2, l2) := section ":types" l1 in
  do _ <- optM types_section o2;
  let '(o3, l3) := section ":constants" l2 in
  do _ <- optM constants_section o3;
  let '(o4, l4) := section ":predicates" l3 in
  do _ <- optM predicates_section o4;
  let '(o5, l5) := section ":functions" l4 in
  do _ <- optM (fun l => ret (functions_section l)) o5;
  mapM structure_def l5.
Lemma sections_run_low e l1 st : same_or_missing e (sections_run l1) st.
Proof.
  unfold sections_run. destruct (section ":types" l1) as [o2 l2].
  apply som_bind; [apply som_optM; intros; apply types_low|]. intros.
  destruct (section ":constants" l2) as [o3 l3].
  apply som_bind.
  { apply som_optM. intros. unfold constants_section. apply som_bind; [apply som_ret|]. intros.
    apply som_bind; [apply som_ret|]. intros. apply som_bind; [now apply som_modify|].
    intros. apply som_ret. }
  intros. destruct (section ":predicates" l3) as [o4 l4].
  apply som_bind.
  { apply som_optM. intros. unfold predicates_section. apply som_bind; [apply som_ret|]. intros.
    apply som_bind; [now apply som_modify|]. intros. apply som_ret. }
  intros. destruct (section ":functions" l4) as [o5 l5].
  apply som_bind; [apply som_optM; intros; apply som_ret|].
  intros. apply som_mapM. apply structure_low.
Qed.
Lemma domain_rule_run n l0 st :
  let '(o1, l1) := section ":requirements" l0 in
  forall rs st1, optM requirements o1 st = (st1, Ok rs) ->
  match snd (sections_run l1 st1) with
  | Err e => snd (domain_rule n l0 st) = Err e
  | Ok xs => True
  end.
Proof.
  destruct (section ":requirements" l0) as [o1 l1] eqn:S1. intros rs st1 H1.
  unfold domain_rule, sections_run. rewrite S1.
  destruct (section ":types" l1) as [o2 l2].
  destruct (section ":constants" l2) as [o3 l3].
  destruct (section ":predicates" l3) as [o4 l4].
  destruct (section ":functions" l4) as [o5 l5].
  unfold bindM. rewrite H1.
  destruct (optM types_section o2 st1) as [st2 [ty|]]; [|reflexivity].
  destruct (optM constants_section o3 st2) as [st3 [cs|]]; [|reflexivity].
  destruct (optM predicates_section o4 st3) as [st4 [ps|]]; [|reflexivity].
  destruct (optM (fun l => ret (functions_section l)) o5 st4) as [st5 [fs|]]; [|reflexivity].
  destruct (mapM structure_def l5 st5) as [st6 [xs|]]; [|reflexivity]. exact I.
Qed.

Lemma require_key_sx r : r <> OBJECT_FLUENTS -> require_key (req_sx r) = Some r.
Proof. destruct r; intros N; try reflexivity. congruence. Qed.
Lemma require_keys_sx rs : ~ In OBJECT_FLUENTS rs -> rs <> [] ->
  require_keys (map req_sx rs) = Ok rs.
Proof.
  intros N E. unfold require_keys. destruct rs as [|r rs]; [congruence|].
  assert (M : mapO require_key (map req_sx (r :: rs)) = Some (r :: rs)).
  { clear E. revert N. generalize (r :: rs). induction l as [|x l IH]; intros N; [reflexivity|].
    cbn [map mapO]. rewrite require_key_sx, IH; auto; intro; apply N; simpl; auto. }
  cbn [map] in *. now rewrite M.
Qed.
Lemma section_declared rs rest : other_sections rest ->
  section ":requirements" (declared_sx rs ++ rest)
  = (match rs with [] => None | _ => Some (map req_sx rs) end, rest).
Proof.
  intros O. destruct rs; [|reflexivity]. cbn [declared_sx app]. unfold section.
  destruct rest as [|[|[|k b]] r]; try reflexivity.
  destruct (is_kw ":requirements" k) eqn:K; [|reflexivity].
  destruct k as [[]|]; try discriminate. apply String.eqb_eq in K. subst s.
  exfalso. apply (O b). left. reflexivity.
Qed.
Lemma declared_run rs st : ~ In OBJECT_FLUENTS rs -> s_ext st = [] ->
  optM requirements (match rs with [] => None | _ => Some (map req_sx rs) end) st
  = (set_ext (extend_reqs rs) st,
     Ok (match rs with [] => None | _ => Some (dedup req_eqb rs) end)).
Proof.
  intros N E. destruct rs as [|r rs].
  - cbn. unfold ret. destruct st. cbn in *. now subst.
  - cbn [optM]. unfold requirements, bindM, ret, modify.
    rewrite require_keys_sx by (auto; discriminate). reflexivity.
Qed.
Lemma parse_domain_rule s n l st : domain_text s n l -> parse_domain s st = domain_rule n l st.
Proof. intros T. unfold parse_domain. rewrite T. reflexivity. Qed.

(** ** goals of problems *)
Lemma parse_problem_goal s n dn sections g p rs : problem_text s n dn sections ->
  In (section_sx ":goal" [g]) sections -> cond_needs g rs -> parse_problem s <> Ok p.
Proof.
  intros T I N. unfold parse_problem, parse_problem_from. unfold problem_text in T. rewrite T.
  cbn [parse_problem_sexp name_sx]. cbn [String.eqb Ascii.eqb Bool.eqb andb is_kw].
  unfold problem_rule.
  destruct (section ":requirements" sections) as [o1 l1] eqn:S1.
  intros H. apply bind_Ok in H as (rq & _ & H).
  destruct (section ":objects" l1) as [o2 l2] eqn:S2.
  apply bind_Ok in H as (os & _ & H).
  destruct (section ":init" l2) as [[inits|] l3] eqn:S3; [|discriminate].
  apply bind_Ok in H as (init & _ & H).
  destruct (section ":goal" l3) as [[[|g' [|]]|] l4] eqn:S4; try discriminate.
  apply bind_Ok in H as (goal & G & H).
  destruct (section ":metric" l4) as [o5 l5] eqn:S5.
  apply bind_Ok in H as (m & _ & H). destruct l5; [|discriminate].
  assert (K : forall k l o r, section k l = (o, r) -> In (section_sx ":goal" [g]) l ->
              k <> ":goal" -> In (section_sx ":goal" [g]) r).
  { intros k l o r E J Nk. unfold section in E. destruct l as [|y l']; [destruct J|].
    destruct y as [|[|k' body]]; try (injection E as <- <-; exact J).
    destruct (is_kw k k') eqn:Kk; injection E as <- <-; [|exact J].
    destruct J as [J|J]; [exfalso|exact J]. injection J as -> _.
    cbn in Kk. apply String.eqb_eq in Kk. congruence. }
  assert (I4 : In (section_sx ":goal" [g]) l3).
  { eapply K; [exact S3| |discriminate]. eapply K; [exact S2| |discriminate].
    eapply K; [exact S1| |discriminate]. exact I. }
  assert (g' = g).
  { unfold section in S4. destruct l3 as [|y l3']; [destruct I4|].
    destruct y as [|[|k' body]]; try discriminate.
    destruct (is_kw ":goal" k') eqn:Kk; [|discriminate]. injection S4 as -> ->.
    destruct I4 as [J|J].
    - injection J as _ ->. reflexivity.
    - assert (J5 : In (section_sx ":goal" [g]) []).
      { eapply K; [exact S5|exact J|discriminate]. }
      destruct J5. }
  subst g'. apply (gd_provided problem_ctx _ _ N) in G. destruct G as (r & _ & []).
Qed.
