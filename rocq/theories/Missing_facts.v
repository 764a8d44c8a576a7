(** The requirement that a PDDLMissingRequirementError names. *)
From Coq Require Import String List Bool Arith Lia.
From Verif Require Import Py Names Reqs Logic Validation Core Lexer TypedList UpdateTags Parser.
From Verif Require Import Py_facts Names_facts Logic_facts Spec_Reqs Spec_Parse TypedList_facts Parse_facts GD_facts Domain_facts Problem_facts.
From Verif Require Import Spec_Features Feature_facts Raise_facts RaiseParse_facts Declared_facts CoreEq_facts.
Import ListNotations.
Open Scope string_scope.
Open Scope list_scope.

Notation missing := PDDLMissingRequirementError.

(** if the call raises PDDLMissingRequirementError, it names the first of a list of requirements of
    which one is needed and none is there *)
Definition blames (ext : list req) (needs : list req -> Prop) {A} (r : res A) : Prop :=
  forall q, r = Err (missing q) -> exists rs, needs (q :: rs) /\ ~ provided ext (q :: rs).
Definition plain {A} (r : res A) : Prop := forall q, r <> Err (missing q).

Lemma plain_blames {A} ext needs (r : res A) : plain r -> blames ext needs r.
Proof. intros P q E. destruct (P q E). Qed.
Lemma within_plain {A} E (r : res A) : within E r -> incl E plainE -> plain r.
Proof. intros W I q H. apply W, I in H. cbn in H. intuition discriminate. Qed.
Lemma plain_Ok {A} (a : A) : plain (Ok a).
Proof. intros q. discriminate. Qed.
Lemma plain_name {A} (r : res A) : within nameE r -> plain r.
Proof. intros W. eapply within_plain; [exact W|apply nameE_plain]. Qed.
Lemma plain_list {A} (r : res A) : within listE r -> plain r.
Proof. intros W. eapply within_plain; [exact W|apply listE_plain]. Qed.
Lemma plain_bind {A B} (r : res A) (k : A -> res B) : plain r -> (forall a, plain (k a)) -> plain (bind r k).
Proof. intros P Q q. destruct r as [a|e]; cbn; [apply Q|]. intros E. injection E as ->. now apply (P q). Qed.
Lemma plain_of_opt {A} (o : option A) : plain (of_opt o).
Proof. destruct o; intros q; discriminate. Qed.
Lemma plain_mapR {A B} (f : A -> res B) l : (forall x, plain (f x)) -> plain (mapR f l).
Proof.
  intros H. induction l; cbn [mapR]; [apply plain_Ok|]. apply plain_bind; auto. intros. apply plain_bind; auto.
  intros. apply plain_Ok.
Qed.
Lemma blames_bind {A B} ext needs (r : res A) (k : A -> res B) :
  blames ext needs r -> (forall a, blames ext needs (k a)) -> blames ext needs (bind r k).
Proof. intros H K q. destruct r as [a|e]; cbn [bind]; [apply K|]. intros E. injection E as ->. now apply H. Qed.
Lemma blames_mapR {A B} ext needs (f : A -> res B) l :
  (forall x, In x l -> blames ext needs (f x)) -> blames ext needs (mapR f l).
Proof.
  induction l as [|x l IH]; intros H; cbn [mapR]; [apply plain_blames, plain_Ok|].
  apply blames_bind; [apply H; now left|]. intros. apply blames_bind; [|intros; apply plain_blames, plain_Ok].
  apply IH. intros. apply H. now right.
Qed.
Lemma blames_check ext (needs : list req -> Prop) b q rs :
  (b = true <-> provided ext (q :: rs)) -> needs (q :: rs) -> blames ext needs (check b (missing q)).
Proof.
  intros E N q' H. destruct b; [discriminate|]. injection H as <-. exists rs. split; auto.
  rewrite <- E. discriminate.
Qed.
Lemma blames_weaken {A} ext (needs needs' : list req -> Prop) (r : res A) :
  (forall rs, needs rs -> needs' rs) -> blames ext needs r -> blames ext needs' r.
Proof. intros S0 H q E. destruct (H q E) as (rs & N & P). exists rs. auto. Qed.

Ltac ok := apply plain_blames, plain_Ok.
Ltac bnd := apply blames_bind; [|intros ?].

Section Context.
  Variable c : gctx.
  Hypothesis HC : forall n, plain (g_const c n).
  Hypothesis HV : forall l, plain (g_vars c l).
  Notation ext := (g_ext c).

  Lemma resolve_plain t : plain (resolve c t).
  Proof. destruct t; cbn; [|apply plain_Ok]. apply plain_bind; [apply HC|intros; apply plain_Ok]. Qed.
  Lemma cov_plain t : plain (constant_or_variable c t).
  Proof.
    destruct t; cbn; [apply plain_Ok|]. destruct (dict_get String.eqb s (g_params c)); [apply plain_Ok|].
    apply plain_bind; [apply plain_name, mk_var_within|intros; apply plain_Ok].
  Qed.
  Lemma atomic_pred_plain n args : plain (atomic_pred c n args).
  Proof.
    unfold atomic_pred. apply plain_bind; [apply plain_of_opt|intros].
    apply plain_bind; [apply plain_mapR, resolve_plain|intros].
    apply plain_bind; [apply plain_mapR, cov_plain|intros]. apply plain_name, mk_pred_within.
  Qed.
  Lemma f_head_plain s : plain (f_head c s).
  Proof.
    destruct s as [[]|[|[[]|] l]]; cbn [f_head]; try (intros q; discriminate).
    - apply plain_name, mk_numfun_within.
    - apply plain_bind; [apply plain_of_opt|intros]. apply plain_bind; [apply plain_mapR, resolve_plain|intros].
      apply plain_bind; [apply plain_mapR, cov_plain|intros]. apply plain_name, mk_numfun_within.
  Qed.
  Lemma f_exp_plain s : plain (f_exp c s).
  Proof.
    induction s as [t|l IH] using sexp_ind'.
    - destruct t; try apply f_head_plain. cbn [f_exp]. apply plain_bind; [|intros; apply plain_Ok].
      eapply within_plain; [apply num_literal_within|]. intros e [<-|[]]. ind.
    - destruct l as [|[[]|] args]; try (apply f_head_plain). cbn [f_exp].
      destruct (arith_op s (length args)); [|intros q; discriminate].
      apply plain_bind; [|intros; apply plain_Ok]. inversion IH as [|? ? _ F]; subst. clear IH.
      induction F as [|x l P F IH]; cbn [mapR]; [apply plain_Ok|]. apply plain_bind; [exact P|intros].
      apply plain_bind; [exact IH|intros; apply plain_Ok].
  Qed.
  Lemma atomic_eq_blames (needs : list req -> Prop) args :
    (starts_term args = true -> needs [EQUALITY]) -> blames ext needs (atomic_eq c args).
  Proof.
    intros N. unfold atomic_eq. destruct (terms args) as [[|a [|b [|]]]|] eqn:T; try (intros q; discriminate).
    bnd; [apply plain_blames, resolve_plain|]. bnd; [apply plain_blames, resolve_plain|].
    bnd. { apply (blames_check _ _ _ _ []); [apply has_provided|]. apply N. eapply terms_starts; eauto. }
    bnd; [apply plain_blames, cov_plain|]. bnd; [apply plain_blames, cov_plain|].
    apply plain_blames, plain_name, mk_eq_within.
  Qed.

  Lemma gd_blames x : blames ext (cond_needs x) (gd c x).
  Proof.
    induction x as [t|l IH] using sexp_ind'; [intros q; discriminate|].
    destruct l as [|[[]|] args]; try (intros q; discriminate); inversion IH as [|? ? _ IHa]; subst; clear IH.
    - assert (MP : forall w, In w ["and"; "or"; "not"; "imply"] -> blames ext (cond_needs (SList (name_sx w :: args))) (mapR (gd c) args)).
      { intros w W. apply blames_mapR. intros y I. rewrite Forall_forall in IHa.
        eapply blames_weaken; [|apply IHa; exact I]. intros rs N. eapply cn_part; eauto. }
      cbn [gd]. destruct (String.eqb_spec s "or") as [->|N1].
      { bnd; [apply MP; simpl; auto|]. bnd; [|ok].
        apply (blames_check _ _ _ _ [ADL]); [apply any_req_provided|constructor]. }
      destruct (String.eqb_spec s "not") as [->|N2].
      { destruct args as [|x [|]]; try (intros q; discriminate). bnd; [|ok].
        inversion IHa; subst. eapply blames_weaken; [|eassumption]. intros rs N. apply (cn_part "not" _ x); simpl; auto. }
      destruct (String.eqb_spec s "and") as [->|N3]. { bnd; [apply MP; simpl; auto|ok]. }
      destruct (String.eqb_spec s "imply") as [->|N4].
      { destruct args as [|x [|y [|]]]; try (intros q; discriminate).
        inversion IHa as [|? ? Hx I2]; subst. inversion I2 as [|? ? Hy _]; subst.
        bnd. { eapply blames_weaken; [|exact Hx]. intros rs N. apply (cn_part "imply" _ x); simpl; auto. }
        bnd. { eapply blames_weaken; [|exact Hy]. intros rs N. apply (cn_part "imply" _ y); simpl; auto. }
        bnd; [|ok]. apply (blames_check _ _ _ _ [ADL]); [apply any_req_provided|constructor]. }
      destruct (String.eqb_spec s "exists") as [->|N5].
      { cbn [orb]. destruct args as [|[|vs] [|x [|]]]; try (intros q; discriminate).
        inversion IHa as [|? ? _ I2]; subst. inversion I2 as [|? ? Hx _]; subst.
        bnd; [apply plain_blames, HV|].
        bnd. { eapply blames_weaken; [|exact Hx]. intros rs N. apply (cn_body "exists"); simpl; auto. }
        bnd. { apply (blames_check _ _ _ _ [QUANTIFIED_PRECONDITION; ADL]); [apply any_req_provided|constructor]. }
        bnd; [apply plain_blames, plain_name, mk_vars_within|ok]. }
      destruct (String.eqb_spec s "forall") as [->|N6].
      { cbn [orb]. destruct args as [|[|vs] [|x [|]]]; try (intros q; discriminate).
        inversion IHa as [|? ? _ I2]; subst. inversion I2 as [|? ? Hx _]; subst.
        bnd; [apply plain_blames, HV|].
        bnd. { eapply blames_weaken; [|exact Hx]. intros rs N. apply (cn_body "forall"); simpl; auto. }
        bnd. { apply (blames_check _ _ _ _ [QUANTIFIED_PRECONDITION; ADL]); [apply any_req_provided|constructor]. }
        bnd; [apply plain_blames, plain_name, mk_vars_within|ok]. }
      cbn [orb]. apply plain_blames, atomic_pred_plain.
    - cbn [gd]. destruct (String.eqb_spec s "=") as [->|N1]; cbn [andb].
      + destruct (starts_term args) eqn:ST.
        * apply atomic_eq_blames. intros _. destruct (starts_term_inv _ ST) as [(n & l & ->)|(l & ->)]; constructor.
        * destruct args as [|x [|y [|]]]; try (intros q; discriminate).
          bnd; [apply plain_blames, f_exp_plain|]. bnd; [apply plain_blames, f_exp_plain|ok].
      + destruct (Parser.comparison s) as [k|]; [|intros q; discriminate].
        destruct args as [|x [|y [|]]]; try (intros q; discriminate).
        bnd; [apply plain_blames, f_exp_plain|]. bnd; [apply plain_blames, f_exp_plain|ok].
  Qed.
  Lemma emptyor_pregd_blames x : blames ext (cond_needs x) (emptyor_pregd c x).
  Proof. destruct x as [|[|]]; cbn [emptyor_pregd]; try apply gd_blames. ok. Qed.
  Lemma atomic_formula_term_blames x : blames ext (eff_needs x) (atomic_formula_term c x).
  Proof.
    destruct x as [|[|[[]|] l]]; cbn [atomic_formula_term]; try (intros q; discriminate).
    - apply plain_blames, atomic_pred_plain.
    - destruct (String.eqb_spec s "=") as [->|]; [|intros q; discriminate].
      apply atomic_eq_blames. intros ST. destruct (starts_term_inv _ ST) as [(n & r & ->)|(r & ->)]; constructor.
  Qed.
  Lemma p_effect_blames x : blames ext (eff_needs x) (p_effect c x).
  Proof.
    destruct x as [|[|[[]|] args]]; try apply atomic_formula_term_blames. unfold p_effect.
    destruct (String.eqb_spec s "not") as [->|N].
    - destruct args as [|x [|]]; try (intros q; discriminate). bnd; [|ok].
      eapply blames_weaken; [|apply atomic_formula_term_blames]. intros rs Nd. apply (en_part "not" _ x); simpl; auto.
    - destruct (assign_op s); [|apply atomic_formula_term_blames].
      destruct args as [|h [|e [|]]]; try (intros q; discriminate).
      bnd; [apply plain_blames, f_head_plain|]. bnd; [apply plain_blames, f_exp_plain|ok].
  Qed.
  Lemma cond_effect_blames x : blames ext (eff_needs x) (cond_effect c x).
  Proof.
    destruct x as [|[|[[]|] args]]; try apply p_effect_blames. unfold cond_effect.
    destruct (String.eqb_spec s "and") as [->|N]; [|apply p_effect_blames].
    bnd; [|ok]. apply blames_mapR. intros y I. eapply blames_weaken; [|apply p_effect_blames].
    intros rs Nd. apply (en_part "and" _ y); simpl; auto.
  Qed.
  Lemma effect_blames x : forall top, blames ext (eff_needs x) (effect c top x).
  Proof.
    induction x as [t|l IH] using sexp_ind'; intros top; [apply p_effect_blames|].
    destruct l as [|[[]|] args]; try (apply p_effect_blames).
    inversion IH as [|? ? _ IHa]; subst; clear IH. cbn [effect].
    assert (MP : forall b w, In w ["and"; "oneof"; "not"] -> blames ext (eff_needs (SList (name_sx w :: args))) (mapR (effect c b) args)).
    { intros b w W. apply blames_mapR. intros y I. rewrite Forall_forall in IHa.
      eapply blames_weaken; [|apply IHa; exact I]. intros rs N. eapply en_part; eauto. }
    destruct (String.eqb_spec s "and") as [->|N1].
    { destruct top; cbn [andb]; [|apply p_effect_blames]. bnd; [apply MP; simpl; auto|ok]. }
    rewrite Bool.andb_false_r. destruct (String.eqb_spec s "forall") as [->|N2].
    { destruct args as [|[|vs] [|x [|]]]; try (intros q; discriminate).
      inversion IHa as [|? ? _ I2]; subst. inversion I2 as [|? ? Hx _]; subst.
      bnd; [apply plain_blames, HV|].
      bnd. { eapply blames_weaken; [|apply Hx]. intros rs N. now apply en_body. }
      bnd; [apply plain_blames, plain_name, mk_vars_within|ok]. }
    destruct (String.eqb_spec s "when") as [->|N3].
    { destruct args as [|x [|y [|]]]; try (intros q; discriminate).
      bnd. { eapply blames_weaken; [|apply gd_blames]. intros rs N. now apply en_when_cond. }
      bnd; [|ok]. eapply blames_weaken; [|apply cond_effect_blames]. intros rs N. now apply en_when_eff. }
    destruct (String.eqb_spec s "oneof") as [->|N4]; [|apply p_effect_blames].
    destruct args as [|x args]; try (intros q; discriminate).
    bnd; [apply MP; simpl; auto|]. bnd; [|ok].
    apply (blames_check _ _ _ _ []); [apply has_provided|constructor].
  Qed.
  Lemma emptyor_effect_blames x : blames ext (eff_needs x) (emptyor_effect c x).
  Proof. destruct x as [|[|]]; cbn [emptyor_effect]; try apply effect_blames. ok. Qed.
End Context.

(** ** the domain *)
Definition blamesM (ext : list req) (needs : list req -> Prop) {A} (m : M A) (st : dstate) : Prop :=
  blames ext needs (snd (m st)).
Lemma blames_bindM {A B} ext needs (m : M A) (k : A -> M B) st :
  blamesM ext needs m st -> (forall a st', m st = (st', Ok a) -> blamesM ext needs (k a) st') ->
  blamesM ext needs (bindM m k) st.
Proof.
  unfold blamesM, bindM. destruct (m st) as [st' [a|e]]; cbn [snd]; intros H K; [exact (K a st' eq_refl)|].
  intros q E. injection E as ->. now apply H.
Qed.
Lemma blames_ret {A} ext needs (r : res A) st : plain r -> blamesM ext needs (ret r) st.
Proof. intros P. apply plain_blames, P. Qed.
Lemma blames_optM {A} ext needs (f : list sexp -> M A) o st :
  (forall l, o = Some l -> blamesM ext needs (f l) st) -> blamesM ext needs (optM f o) st.
Proof.
  intros H. destruct o as [l|]; cbn [optM]; [|apply blames_ret, plain_Ok].
  apply blames_bindM; [now apply H|]. intros. apply blames_ret, plain_Ok.
Qed.
Ltac okM := apply blames_ret, plain_Ok.
Ltac bndM := apply blames_bindM; [|intros ? ? ?].

Lemma domain_const_plain st n : plain (g_const (domain_ctx st) n).
Proof. cbn. destruct (dict_get String.eqb n (s_constants st)); intros q; discriminate. Qed.
Lemma domain_vars_plain st l : plain (g_vars (domain_ctx st) l).
Proof. apply plain_list, typed_list_variable_within. Qed.
Lemma is_kw_sx k x : is_kw k x = true -> x = SAtom (TKw k).
Proof. destruct x as [[]|]; try discriminate. intros E. apply String.eqb_eq in E. now subst. Qed.

Lemma action_body_blames l st q : action_body l st = Err (missing q) -> forall n ps,
  exists rs, def_needs (section_sx ":action" (name_sx n :: SAtom (TKw ":parameters") :: SList ps :: l)) (q :: rs)
    /\ ~ provided (s_ext st) (q :: rs).
Proof.
  assert (P : forall x, blames (s_ext st) (cond_needs x) (emptyor_pregd (domain_ctx st) x))
    by (intros; apply (emptyor_pregd_blames (domain_ctx st)); intros; [apply domain_const_plain|apply domain_vars_plain]).
  assert (Q : forall x, blames (s_ext st) (eff_needs x) (emptyor_effect (domain_ctx st) x))
    by (intros; apply (emptyor_effect_blames (domain_ctx st)); intros; [apply domain_const_plain|apply domain_vars_plain]).
  unfold action_body. destruct l as [|k1 [|x [|k2 [|y [|]]]]]; try discriminate.
  - destruct (is_kw ":precondition" k1) eqn:K1; [|destruct (is_kw ":effect" k1) eqn:K2; [|discriminate]].
    + apply is_kw_sx in K1 as ->. intros H n ps.
      destruct (emptyor_pregd (domain_ctx st) x) as [f|e] eqn:E; cbn [bind] in H; [discriminate|].
      injection H as ->. apply P in E as (rs & N & U). exists rs. split; auto. now constructor.
    + apply is_kw_sx in K2 as ->. intros H n ps.
      destruct (emptyor_effect (domain_ctx st) x) as [f|e] eqn:E; cbn [bind] in H; [discriminate|].
      injection H as ->. apply Q in E as (rs & N & U). exists rs. split; auto. now constructor.
  - destruct (is_kw ":precondition" k1 && is_kw ":effect" k2) eqn:K; [|discriminate].
    apply andb_true_iff in K as [K1 K2]. apply is_kw_sx in K1 as ->. apply is_kw_sx in K2 as ->. intros H n ps.
    destruct (emptyor_pregd (domain_ctx st) x) as [f|e] eqn:E; cbn [bind] in H.
    + destruct (emptyor_effect (domain_ctx st) y) as [g|e] eqn:E2; cbn [bind] in H; [discriminate|].
      injection H as ->. apply Q in E2 as (rs & N & U). exists rs. split; auto. now apply dn_eff.
    + injection H as ->. apply P in E as (rs & N & U). exists rs. split; auto. now apply dn_pre.
Qed.
Lemma structure_blames x st : blamesM (s_ext st) (def_needs x) (structure_def x) st.
Proof.
  unfold structure_def. destruct x as [|[|k body]]; try (intros q; discriminate).
  destruct (is_kw ":action" k) eqn:K.
  - apply is_kw_sx in K as ->. bndM; [|okM]. unfold action_def.
    destruct body as [|[[]|] [|k' [|[|ps] body]]]; try (intros q; discriminate).
    destruct (is_kw ":parameters" k') eqn:K'; [|intros q; discriminate]. apply is_kw_sx in K' as ->.
    bndM.
    + unfold action_parameters. bndM; [apply blames_ret, plain_list, typed_list_variable_within|].
      bndM; [apply blames_ret, plain_name, mk_vars_within|]. cbn zeta. bndM; [|okM]. intros q; discriminate.
    + apply action_parameters_st in H as (tl & vars & _ & _ & E & _).
      assert (E' : s_ext st = s_ext st') by (rewrite E; reflexivity). rewrite E'. clear E E'.
      bndM; [|apply blames_ret; unfold mk_action; apply plain_bind; [apply plain_name, parse_name_within|intros; apply plain_Ok]].
      intros q Hq. cbn [reads snd] in Hq. eapply action_body_blames; exact Hq.
  - destruct (is_kw ":derived" k) eqn:K2; [|intros q; discriminate]. apply is_kw_sx in K2 as ->.
    bndM; [|okM]. unfold derived_def. destruct body as [|h [|x [|]]]; try (intros q; discriminate).
    bndM; [apply blames_ret; eapply within_plain; [apply skeleton_within|apply incl_refl]|].
    apply ret_Ok in H as [-> H]. bndM.
    + eapply blames_weaken; [|apply (gd_blames (domain_ctx st)); intros; [apply domain_const_plain|apply domain_vars_plain]].
      intros rs N. now apply dn_derived.
    + apply reads_Ok in H0 as [-> H0]. apply plain_blames. cbn [reads snd].
      eapply within_plain; [|apply incl_refl].
      apply derived_callback_within; [eapply skeleton_vars; eassumption|eapply gd_no_effect; eassumption].
Qed.
Lemma structures_blames ext l : forall st, s_ext st = ext ->
  blamesM ext (fun rs => exists x, In x l /\ def_needs x rs) (mapM structure_def l) st.
Proof.
  induction l as [|x l IH]; intros st E; cbn [mapM]; [okM|].
  bndM.
  - subst ext. eapply blames_weaken; [|apply structure_blames]. intros rs N. exists x. simpl; auto.
  - bndM; [|okM]. eapply blames_weaken; [|apply IH; rewrite <- E; eapply structure_def_ext; eauto].
    intros rs (y & I & N). exists y. simpl; auto.
Qed.

Lemma names_dash l groups tail n g : written_names l groups tail -> In (n, Some g) (map (fun kv => (fst kv, hd_error (snd kv))) (assigned groups tail)) -> In dash l.
Proof.
  intros W I. destruct W as [tail|items t l groups tail N O W].
  - exfalso. unfold assigned in I. cbn in I. rewrite map_map in I. apply in_map_iff in I as (y & E & _). discriminate.
  - apply in_or_app. right. now left.
Qed.
Lemma types_blames l st : blamesM (s_ext st) (section_needs (section_sx ":types" l)) (types_section l) st.
Proof.
  unfold types_section. bndM; [apply blames_ret, plain_list, typed_list_name_within|].
  apply ret_Ok in H as [-> T]. bndM.
  - intros q H. cbn [reads snd] in H. destruct (negb _) eqn:B; cbn [orb] in H; [discriminate|].
    destruct (has TYPING (s_ext st)) eqn:Y; [discriminate|]. injection H as <-. exists []. split.
    + constructor. apply negb_false_iff, existsb_exists in B as ([n [g|]] & I & B); [|discriminate].
      apply typed_list_name_iff in T as (groups & tail & W & -> & _). eapply names_dash; eauto.
    + rewrite <- has_provided, Y. discriminate.
  - bndM; [|bndM; [|okM]; intros q; discriminate]. intros q Hq. cbn [reads snd] in Hq.
    destruct (s_types st'); discriminate.
Qed.
Lemma section_In k l o r x : section k l = (o, r) -> In x r -> In x l.
Proof.
  unfold section. destruct l as [|[|[|k' b]] l']; try (intros [= <- <-]; auto).
  destruct (is_kw k k'); intros [= <- <-]; simpl; auto.
Qed.
Lemma section_Some k l b r : section k l = (Some b, r) -> In (section_sx k b) l.
Proof.
  unfold section. destruct l as [|[|[|k' b']] l']; try discriminate.
  destruct (is_kw k k') eqn:K; [|discriminate]. apply is_kw_sx in K as ->. intros [= <- <-]. now left.
Qed.
Lemma domain_rule_blames n l0 l1 o1 st st1 rs : section ":requirements" l0 = (o1, l1) -> optM requirements o1 st = (st1, Ok rs) ->
  blamesM (s_ext st1) (fun rs => exists x, In x l1 /\ section_needs x rs) (domain_rule n l0) st.
Proof.
  intros S1 H1. unfold domain_rule. rewrite S1. apply blames_bindM; [unfold blamesM; rewrite H1; cbn; ok|].
  intros a st' H. rewrite H1 in H. injection H as <- <-.
  destruct (section ":types" l1) as [o2 l2] eqn:S2. bndM.
  { apply blames_optM. intros l ->. eapply blames_weaken; [|apply types_blames]. intros r N. eexists. split; [|exact N].
    eapply section_Some; eauto. }
  assert (E2 : s_ext st' = s_ext st1) by (eapply sections_ext; [|eassumption]; intros; eapply types_ext; eauto).
  destruct (section ":constants" l2) as [o3 l3] eqn:S3. bndM.
  { apply blames_optM. intros. apply plain_blames. eapply within_plain; [apply constants_section_within|apply incl_refl]. }
  assert (E3 : s_ext st'0 = s_ext st') by (eapply sections_ext; [|eassumption]; intros; eapply constants_ext; eauto).
  destruct (section ":predicates" l3) as [o4 l4] eqn:S4. bndM.
  { apply blames_optM. intros. apply plain_blames. eapply within_plain; [apply predicates_within|apply incl_refl]. }
  assert (E4 : s_ext st'1 = s_ext st'0) by (eapply sections_ext; [|eassumption]; intros; eapply predicates_ext; eauto).
  destruct (section ":functions" l4) as [o5 l5] eqn:S5. bndM.
  { apply blames_optM. intros. apply plain_blames. eapply within_plain; [apply functions_within|apply incl_refl]. }
  assert (E5 : s_ext st'2 = s_ext st'1).
  { eapply sections_ext; [|eassumption]. intros l x s'' Hx. now apply ret_Ok in Hx as [-> _]. }
  bndM.
  { eapply blames_weaken; [|apply structures_blames; congruence]. intros r (x & I & N). exists x. split; [|now constructor].
    eapply section_In; [exact S2|]. eapply section_In; [exact S3|]. eapply section_In; [exact S4|]. eapply section_In; [exact S5|]. exact I. }
  cbn zeta. bndM; [intros q; discriminate|]. apply blames_ret.
  apply plain_name, mk_domain_within. apply Forall_forall. intros b Hb.
  match goal with X : mapM structure_def l5 _ = _ |- _ => apply mapM_runs in X; rename X into HX end.
  apply in_flat_map in Hb as ([b'|b'] & Hx & Ha); [|destruct Ha]. destruct Ha as [->|[]].
  destruct (runs_In _ (fun _ => True) _ _ _ _ _ HX Logic.I (fun _ _ _ _ _ _ _ => Logic.I) Hx) as (x & s & s' & _ & _ & R).
  eapply structure_some; eassumption.
Qed.

(** ** texts *)
Lemma parse_domain_missing_inv s st q : snd (parse_domain s st) = Err (missing q) ->
  exists n l, domain_text s n l /\ snd (domain_rule n l st) = Err (missing q).
Proof.
  unfold parse_domain, domain_text. destruct (read_text s) as [l|]; [|discriminate]. unfold parse_domain_sexp.
  destruct l as [|x l]; try discriminate. destruct x as [|x]; try discriminate.
  destruct x as [|k1 x]; try discriminate. destruct k1 as [k1|]; try discriminate.
  destruct k1 as [| | |k1| | | |]; try discriminate.
  destruct x as [|x1 x]; try discriminate. destruct x1 as [|x1]; try discriminate.
  destruct x1 as [|k2 x1]; try discriminate. destruct k2 as [k2|]; try discriminate.
  destruct k2 as [| | |k2| | | |]; try discriminate.
  destruct x1 as [|n x1]; try discriminate. destruct n as [n|]; try discriminate.
  destruct n as [| | |n| | | |]; try discriminate. destruct x1; try discriminate. destruct l; try discriminate.
  destruct (String.eqb_spec k1 "define") as [->|]; [|discriminate].
  destruct (String.eqb_spec k2 "domain") as [->|]; [|discriminate]. cbn [andb].
  intros H. exists n, x. split; [reflexivity|exact H].
Qed.
Lemma parse_problem_missing_inv s q : parse_problem s = Err (missing q) ->
  exists n dn l, problem_text s n dn l /\ problem_rule [] n dn l = Err (missing q).
Proof.
  unfold parse_problem, parse_problem_from, problem_text. destruct (read_text s) as [l|]; [|discriminate].
  unfold parse_problem_sexp.
  destruct l as [|x l]; try discriminate. destruct x as [|x]; try discriminate.
  destruct x as [|k1 x]; try discriminate. destruct k1 as [k1|]; try discriminate.
  destruct k1 as [| | |k1| | | |]; try discriminate.
  destruct x as [|x1 x]; try discriminate. destruct x1 as [|x1]; try discriminate.
  destruct x1 as [|k2 x1]; try discriminate. destruct k2 as [k2|]; try discriminate.
  destruct k2 as [| | |k2| | | |]; try discriminate.
  destruct x1 as [|n x1]; try discriminate. destruct n as [n|]; try discriminate.
  destruct n as [| | |n| | | |]; try discriminate. destruct x1; try discriminate.
  destruct x as [|x2 x]; try discriminate. destruct x2 as [|x2]; try discriminate.
  destruct x2 as [|k3 x2]; try discriminate. destruct x2 as [|dn x2]; try discriminate.
  destruct dn as [dn|]; try discriminate. destruct dn as [| | |dn| | | |]; try discriminate.
  destruct x2; try discriminate. destruct l; try discriminate.
  destruct (String.eqb_spec k1 "define") as [->|]; [|discriminate].
  destruct (String.eqb_spec k2 "problem") as [->|]; [|discriminate]. cbn [andb].
  destruct (is_kw ":domain" k3) eqn:K; [|discriminate]. apply is_kw_sx in K as ->.
  intros H. exists n, dn, x. split; [reflexivity|exact H].
Qed.

Lemma keys_declared l ks : (forall k, In (SAtom (TKw k)) l -> In k colon_keywords) -> require_keys l = Ok ks ->
  l = map req_sx ks /\ ks <> [].
Proof.
  intros K H. assert (X : l <> [] /\ mapO require_key l = Some ks).
  { unfold require_keys in H. destruct l; [discriminate|]. split; [discriminate|]. destruct (mapO require_key (s :: l)); [now injection H as ->|discriminate]. }
  destruct X as [N X]. apply mapO_iff in X. assert (E : l = map req_sx ks).
  { clear N H. induction X as [|x y l ys E F IH]; [reflexivity|]. cbn [map].
    apply require_key_iff in E as [-> _]; [|intros k ->; apply K; now left].
    f_equal. apply IH. intros k I. apply K. now right. }
  split; auto. intros ->. now subst.
Qed.
Lemma domain_run s n l q : domain_text s n l -> snd (domain_rule n l init_dstate) = Err (missing q) ->
  exists declared rest x rs, l = declared_sx declared ++ rest
    /\ (declared = [] -> section ":requirements" l = (None, l))
    /\ In x rest /\ section_needs x (q :: rs) /\ ~ met declared (q :: rs).
Proof.
  intros T H. destruct (section ":requirements" l) as [o1 l1] eqn:S1.
  destruct (optM requirements o1 init_dstate) as [st1 [rs|e]] eqn:H1.
  - destruct (domain_rule_blames n _ _ _ _ _ _ S1 H1 q H) as (r & (x & I & N) & U).
    pose proof (section_inv _ _ _ _ S1) as E. apply optM_Ok in H1. destruct o1 as [b|].
    + destruct H1 as (a & H1 & _). apply requirements_st in H1 as (ks & K & _ & ->).
      destruct (keys_declared b ks) as [-> NE]; auto.
      { intros k J. eapply kw_in_section; [exact T| |exact J]. eapply section_Some; eauto. }
      exists ks, l1, x, r. split; [destruct ks; [congruence|exact E]|]. split; [congruence|].
      split; auto. split; auto. rewrite <- provided_met. exact U.
    + destruct H1 as [-> ->]. exists [], l1, x, r. cbn in E. subst l. split; auto. split; auto. split; auto. split; auto.
      rewrite <- provided_met. intros (y & Y & Z). apply Order_facts.extend_exact in Z as [[]|(z & [] & _)].
  - exfalso. unfold domain_rule in H. rewrite S1 in H. unfold bindM in H. rewrite H1 in H. cbn [snd] in H. injection H as ->.
    assert (W : within plainE (snd (optM requirements o1 init_dstate))).
    { apply within_optM. intros. apply within_bindM; [|intros; apply within_Ok].
      cbn [ret snd]. eapply within_incl; [apply require_keys_within|]. intros e. ind. }
    rewrite H1 in W. specialize (W _ eq_refl). cbn in W. intuition discriminate.
Qed.
Lemma domain_named s q : parse_domain_fresh s = Err (missing q) ->
  exists n declared rest x rs, domain_text s n (declared_sx declared ++ rest)
    /\ In x rest /\ section_needs x (q :: rs) /\ ~ met declared (q :: rs).
Proof.
  intros H. apply parse_domain_missing_inv in H as (n & l & T & H).
  destruct (domain_run _ _ _ _ T H) as (d & r & x & rs & -> & _ & I & N & U). exists n, d, r, x, rs. auto.
Qed.
Lemma declared_sx_inj d d' r r' : d <> [] -> (d' = [] -> section ":requirements" (declared_sx d' ++ r') = (None, declared_sx d' ++ r')) ->
  declared_sx d ++ r = declared_sx d' ++ r' -> d = d'.
Proof.
  intros N E H. destruct d' as [|x' d'].
  - specialize (E eq_refl). cbn in E. cbn in H. subst r'. destruct d; [congruence|]. discriminate E.
  - destruct d as [|x d]; [congruence|]. cbn in H. injection H as H0 H _.
    assert (J : forall a b, req_sx a = req_sx b -> a = b) by (intros a b; destruct a, b; intros K; try reflexivity; discriminate K).
    f_equal; [apply J; unfold req_sx, req_str; cbn; congruence|]. clear - H J. revert d' H. induction d as [|y d IH]; intros [|z d'] H; try discriminate; auto.
    cbn in H. injection H as H1 H2. f_equal; auto. apply J. unfold req_sx, req_str. cbn. congruence.
Qed.
Lemma domain_undeclared s n declared rest q : domain_text s n (declared_sx declared ++ rest) -> declared <> [] ->
  parse_domain_fresh s = Err (missing q) -> ~ in_force declared q.
Proof.
  intros T N H. apply parse_domain_missing_inv in H as (n' & l & T' & H).
  destruct (domain_run _ _ _ _ T' H) as (d & r & x & rs & E & F & I & X & U).
  unfold domain_text in *. rewrite T in T'. injection T' as _ E'. rewrite <- E' in E.
  subst l. rewrite E in F. rewrite (declared_sx_inj declared d rest r N F E). intros J. apply U. exists q. split; auto. now left.
Qed.

(** ** what the sections need is provided *)
Lemma dash_typed l groups tail : written_names l groups tail -> In dash l ->
  exists n g, In (n, Some g) (map (fun kv => (fst kv, hd_error (snd kv))) (assigned groups tail)).
Proof.
  intros W I. destruct W as [tail|items t l groups tail N O W].
  - apply in_map_iff in I as (x & E & _). discriminate.
  - destruct items as [|a items]; [congruence|]. exists a, t. apply in_map_iff. exists (a, [t]). split; auto. now left.
Qed.
Lemma types_provided l st st' d : types_section l st = (st', Ok d) -> In dash l -> provided (s_ext st) [TYPING].
Proof.
  unfold types_section. intros H I. apply bindM_Ok in H as (sa & tl & A & H). apply ret_Ok in A as [-> A].
  apply bindM_Ok in H as (sb & u & B & _). cbn [reads] in B. apply has_provided. unfold reads, check in B.
  destruct (has TYPING (s_ext st)); auto. rewrite orb_false_r in B.
  apply typed_list_name_iff in A as (groups & tail & W & -> & _). destruct (dash_typed _ _ _ W I) as (n & g & J).
  replace (existsb _ _) with true in B; [discriminate|]. symmetry. apply existsb_exists. exists (n, Some g). auto.
Qed.
Lemma sections_run_needs l st st' xs x rs : sections_run l st = (st', Ok xs) -> In x l -> section_needs x rs ->
  provided (s_ext st) rs.
Proof.
  intros L I D. unfold sections_run in L.
  destruct (section ":types" l) as [o2 l2] eqn:S2.
  apply bindM_Ok in L as (st2 & ty & H2 & L).
  destruct (section ":constants" l2) as [o3 l3] eqn:S3.
  apply bindM_Ok in L as (st3 & cs & H3 & L).
  destruct (section ":predicates" l3) as [o4 l4] eqn:S4.
  apply bindM_Ok in L as (st4 & ps & H4 & L).
  destruct (section ":functions" l4) as [o5 l5] eqn:S5.
  apply bindM_Ok in L as (st5 & fs & H5 & L).
  assert (E4 : s_ext st5 = s_ext st).
  { erewrite (sections_ext (fun l => ret (functions_section l))); [| |exact H5].
    2:{ intros k a q Hq. now apply ret_Ok in Hq as [-> _]. }
    erewrite (sections_ext predicates_section); [|intros; eapply predicates_ext; eauto|exact H4].
    erewrite (sections_ext constants_section); [|intros; eapply constants_ext; eauto|exact H3].
    erewrite (sections_ext types_section); [|intros; eapply types_ext; eauto|exact H2].
    reflexivity. }
  destruct D as [body J|x rs D].
  - assert (o2 = Some body) as ->.
    { apply (in_section _ _ _ _ body S2); auto. intros b.
      rewrite (other_section _ _ _ _ _ b S3), (other_section _ _ _ _ _ b S4), (other_section _ _ _ _ _ b S5) by discriminate.
      eapply defs_section; eauto; discriminate. }
    cbn [optM] in H2. apply bindM_Ok in H2 as (st2' & ty' & H2 & _). eapply types_provided; eauto.
  - pose proof (def_needs_def _ _ D) as DD.
    assert (I5 : In x l5).
    { eapply section_keeps; [exact S5| |exact DD|discriminate|discriminate].
      eapply section_keeps; [exact S4| |exact DD|discriminate|discriminate].
      eapply section_keeps; [exact S3| |exact DD|discriminate|discriminate].
      eapply section_keeps; [exact S2| |exact DD|discriminate|discriminate]. exact I. }
    apply mapM_runs in L.
    destruct (runs_all_inv structure_def (fun st => s_ext st = s_ext st5) _ _ _ _ x L eq_refl)
      as (s0 & s1 & y & Es & _ & F); [|exact I5|].
    { intros z a b w Ea Eb. rewrite <- Ea. eapply structure_def_ext; eauto. }
    apply (def_needs_provided _ _ _ _ _ D) in F. now rewrite Es, E4 in F.
Qed.
Lemma domain_sections_met s n l d x rs : domain_text s n l -> parse_domain_fresh s = Ok d ->
  In x l -> section_needs x rs -> met (d_reqs d) rs.
Proof.
  intros T P I N. destruct N as [body J|x rs N]; [|eapply domain_needs_met; eauto].
  unfold parse_domain_fresh in P. destruct (parse_domain s init_dstate) as [st' r] eqn:E. cbn [snd] in P. subst r.
  pose proof E as E0. apply parse_domain_inv in E as (n' & l0 & T' & E).
  unfold domain_text in *. rewrite T in T'. injection T' as _ <-.
  apply domain_rule_inv in E
    as (o1 & l1 & st1 & rq & o2 & l2 & st2 & ty & o3 & l3 & st3 & cs & o4 & l4 & st4 & ps & o5
        & l5 & fs & st6 & xs & S1 & H1 & S2 & H2 & S3 & H3 & S4 & H4 & S5 & H5 & H6 & _ & D).
  apply mk_domain_inv in D as (_ & _ & R & _).
  assert (Z : o2 = Some body).
  { apply (in_section _ _ _ _ body S2); [|now apply (other_section _ _ _ _ _ body S1)]. intros b.
    rewrite (other_section _ _ _ _ _ b S3), (other_section _ _ _ _ _ b S4), (other_section _ _ _ _ _ b S5) by discriminate.
    eapply defs_section; eauto; discriminate. }
  subst o2. cbn [optM] in H2. apply bindM_Ok in H2 as (st2' & ty' & H2 & _). apply types_provided in H2; auto.
  apply provided_met. rewrite R. destruct H2 as (q & Q1 & Q2). exists q. split; auto.
  now apply (requirements_ext _ _ _ _ (eq_refl : s_ext init_dstate = []) H1).
Qed.
Lemma domain_missing_any s s' n n' rq rq' rest d' x rs :
  other_sections rest -> ~ In OBJECT_FLUENTS rq -> ~ In OBJECT_FLUENTS rq' ->
  domain_text s' n' (declared_sx rq' ++ rest) -> parse_domain_fresh s' = Ok d' ->
  domain_text s n (declared_sx rq ++ rest) ->
  In x rest -> section_needs x rs -> ~ met rq rs ->
  exists q, parse_domain_fresh s = Err (missing q).
Proof.
  intros O N N' T' P' T I D U. unfold parse_domain_fresh in *.
  rewrite (parse_domain_rule _ _ _ _ T') in P'. rewrite (parse_domain_rule _ _ _ _ T).
  pose proof (domain_rule_run n' (declared_sx rq' ++ rest) init_dstate) as R'.
  pose proof (domain_rule_run n (declared_sx rq ++ rest) init_dstate) as R.
  rewrite section_declared in R, R' by exact O.
  specialize (R _ _ (declared_run rq init_dstate N eq_refl)).
  specialize (R' _ _ (declared_run rq' init_dstate N' eq_refl)).
  destruct (sections_run rest (set_ext (extend_reqs rq') init_dstate)) as [st' [xs|e]] eqn:E';
    cbn [snd] in R'; [|rewrite R' in P'; discriminate].
  destruct (sections_run_low (extend_reqs rq) rest _ _ _ E') as [L|L];
    change (low (extend_reqs rq) (set_ext (extend_reqs rq') init_dstate))
      with (set_ext (extend_reqs rq) init_dstate) in L.
  - exfalso. apply U, provided_met. exact (sections_run_needs _ _ _ _ _ _ L I D).
  - destruct L as (q & L). rewrite L in R. exists q. exact R.
Qed.

Lemma domain_missing_named s s' n n' rq rq' rest d' def rs :
  other_sections rest -> ~ In OBJECT_FLUENTS rq -> ~ In OBJECT_FLUENTS rq' ->
  domain_text s' n' (declared_sx rq' ++ rest) -> parse_domain_fresh s' = Ok d' ->
  domain_text s n (declared_sx rq ++ rest) ->
  In def rest -> section_needs def rs -> ~ met rq rs ->
  exists x q rs', parse_domain_fresh s = Err (missing q)
    /\ In x rest /\ section_needs x (q :: rs') /\ ~ met rq (q :: rs').
Proof.
  intros O N N' T' P' T I D U.
  destruct (domain_missing_any s s' n n' rq rq' rest d' def rs O N N' T' P' T I D U) as (q & E).
  pose proof E as E0. apply parse_domain_missing_inv in E as (n1 & l & T1 & H).
  destruct (domain_run _ _ _ _ T1 H) as (d & r & x & rs' & El & F & Ix & X & Ux).
  unfold domain_text in *. rewrite T in T1. injection T1 as _ <-.
  assert (Z : rq = d /\ rest = r).
  { destruct rq as [|a rq].
    - destruct d as [|b d]; [split; auto|]. exfalso. cbn in El. apply (O (map req_sx (b :: d))). rewrite El. left. reflexivity.
    - assert (K : a :: rq = d) by (eapply declared_sx_inj; [discriminate| |exact El]; rewrite <- El; exact F).
      subst d. split; auto. now apply app_inv_head in El. }
  destruct Z as [<- <-]. exists x, q, rs'. auto.
Qed.

(** ** problems *)
Lemma problem_const_plain n : plain (g_const problem_ctx n).
Proof. cbn. apply plain_name, mk_const_within. Qed.
Lemma problem_vars_plain l : plain (g_vars problem_ctx l).
Proof. cbn. apply plain_bind; [apply plain_of_opt|intros; apply plain_Ok]. Qed.
Definition noM := [ValueError; PDDLValidationError; PDDLParsingError; LarkSyntaxError].
Lemma noM_plain : incl noM plainE.
Proof. intros e. cbn. tauto. Qed.
Lemma bft_plain s : plain (basic_function_term s).
Proof.
  destruct s as [[]|[|[[]|] args]]; cbn [basic_function_term]; try (intros q; discriminate).
  - apply plain_name, mk_numfun_within.
  - apply plain_bind; [apply plain_of_opt|intros]. apply plain_bind; [apply plain_mapR; intros; apply plain_name, mk_const_within|].
    intros. apply plain_name, mk_numfun_within.
Qed.
Lemma afn_plain objs s : plain (atomic_formula_name objs s).
Proof.
  destruct s as [[]|[|[[]|] args]]; cbn [atomic_formula_name]; try (intros q; discriminate).
  apply plain_bind; [apply plain_of_opt|intros]. apply plain_bind.
  - apply plain_mapR. intros x. destruct (dict_get String.eqb x objs); [apply plain_Ok|apply plain_name, mk_const_within].
  - intros. apply plain_name, mk_pred_within.
Qed.
Lemma num_plain s : plain (num_literal s).
Proof. eapply within_plain; [apply num_literal_within|]. intros e [<-|[]]. ind. Qed.
Lemma init_el_plain objs s : plain (init_el objs s).
Proof.
  destruct s as [|[|[[]|] args]]; cbn [init_el]; try (intros q; discriminate).
  - destruct (String.eqb s "not"); [|apply afn_plain]. destruct args as [|x [|]]; try (intros q; discriminate).
    apply plain_bind; [apply afn_plain|intros; apply plain_Ok].
  - destruct args as [|f [|[[]|] [|]]]; try (intros q; discriminate).
    destruct (String.eqb s "="); [|intros q; discriminate].
    apply plain_bind; [apply bft_plain|intros]. apply plain_bind; [apply num_plain|intros; apply plain_Ok].
Qed.
Lemma metric_f_exp_plain s : plain (metric_f_exp s).
Proof.
  induction s as [t|l IH] using sexp_ind'.
  - destruct t; try apply bft_plain. apply plain_Ok.
  - destruct l as [|[[]|] args]; try apply bft_plain. cbn [metric_f_exp].
    destruct (arith_op s (length args)); [|intros q; discriminate].
    apply plain_bind; [|intros; apply plain_Ok]. inversion IH as [|? ? _ F]; subst. clear IH.
    induction F as [|x l P F IH]; cbn [mapR]; [apply plain_Ok|]. apply plain_bind; [exact P|intros].
    apply plain_bind; [exact IH|intros; apply plain_Ok].
Qed.
Lemma metric_spec_plain l : plain (metric_spec l).
Proof.
  destruct l as [|[[]|] [|e [|]]]; try (intros q; discriminate). cbn [metric_spec].
  destruct (memb String.eqb s ["maximize"; "minimize"]) eqn:B; [|intros q; discriminate].
  apply plain_bind; [apply metric_f_exp_plain|intros f]. unfold mk_metric. rewrite B. apply plain_Ok.
Qed.
Lemma opt_res_plain {A} (f : list sexp -> res A) o : (forall l, plain (f l)) -> plain (opt_res f o).
Proof. intros H. destruct o; cbn; [|apply plain_Ok]. apply plain_bind; auto. intros; apply plain_Ok. Qed.
Lemma objects_plain l : plain (objects_section l).
Proof. apply plain_bind; [apply plain_list, typed_list_name_within|]. intros. apply plain_name, constants_within. Qed.

(** the error comes from the goal, after sections that were read *)
Lemma problem_rule_missing n dn l q : problem_rule [] n dn l = Err (missing q) ->
  let '(o1, l1) := section ":requirements" l in
  exists rs o2 os inits g rest, opt_res require_keys o1 = Ok rs
    /\ l1 = opt_section ":objects" o2 ++ section_sx ":init" inits :: section_sx ":goal" [g] :: rest
    /\ section ":objects" l1 = (o2, section_sx ":init" inits :: section_sx ":goal" [g] :: rest)
    /\ opt_res objects_section o2 = Ok os
    /\ is_ok (mapR (init_el (match os with Some d => d | None => [] end)) inits) = true
    /\ gd problem_ctx g = Err (missing q).
Proof.
  unfold problem_rule. destruct (section ":requirements" l) as [o1 l1]. intros H.
  destruct (opt_res require_keys o1) as [rs|e] eqn:R.
  2:{ exfalso. cbn in H. injection H as ->. revert R. apply opt_res_plain. intros.
      eapply within_plain; [apply require_keys_within|]. intros e [<-|[]]. ind. }
  cbn [bind] in H. destruct (section ":objects" l1) as [o2 l2] eqn:S2.
  destruct (opt_res objects_section o2) as [os|e] eqn:OO.
  2:{ exfalso. cbn in H. injection H as ->. revert OO. apply opt_res_plain, objects_plain. }
  cbn [bind] in H. cbn zeta in H. destruct (section ":init" l2) as [[inits|] l3] eqn:S3; [|discriminate].
  destruct (mapR (init_el _) inits) as [init|e] eqn:IE.
  2:{ exfalso. cbn in H. injection H as ->. revert IE. apply plain_mapR, init_el_plain. }
  cbn [bind] in H. destruct (section ":goal" l3) as [[[|g [|]]|] l4] eqn:S4; try discriminate.
  apply section_inv in S3. apply section_inv in S4. cbn in S3, S4. subst l3 l2.
  exists rs, o2, os, inits, g, l4. split; auto. split; [now apply section_inv in S2|]. split; auto. split; auto.
  rewrite IE. split; auto.
  destruct (gd problem_ctx g) as [goal|e] eqn:G; [exfalso|cbn in H; now injection H as ->].
  cbn [bind] in H. destruct (section ":metric" l4) as [o5 l5].
  destruct (opt_res metric_spec o5) as [m|e] eqn:MM.
  2:{ cbn in H. injection H as ->. revert MM. apply opt_res_plain, metric_spec_plain. }
  cbn [bind] in H. destruct l5; [|discriminate]. revert H. apply plain_name, mk_problem_within.
Qed.
Lemma problem_named s q : parse_problem s = Err (missing q) ->
  exists n dn l g rs, problem_text s n dn l /\ In (section_sx ":goal" [g]) l /\ cond_needs g (q :: rs).
Proof.
  intros H. apply parse_problem_missing_inv in H as (n & dn & l & T & H). apply problem_rule_missing in H.
  destruct (section ":requirements" l) as [o1 l1] eqn:S1. destruct H as (rs & o2 & os & inits & g & rest & _ & E & _ & _ & _ & G).
  destruct (gd_blames problem_ctx problem_const_plain problem_vars_plain g q G) as (rs' & N & _).
  exists n, dn, l, g, rs'. split; auto. split; auto. eapply section_In; [exact S1|]. rewrite E.
  apply in_or_app. right. right. now left.
Qed.
Lemma problem_same s s' n n' d d' rq rq' rest q : other_sections rest -> ~ In OBJECT_FLUENTS rq' ->
  problem_text s n d (declared_sx rq ++ rest) -> problem_text s' n' d' (declared_sx rq' ++ rest) ->
  parse_problem s = Err (missing q) -> parse_problem s' = Err (missing q).
Proof.
  intros O N T T' H. apply parse_problem_missing_inv in H as (n1 & dn & l & T1 & H).
  unfold problem_text in *. rewrite T in T1. injection T1 as _ _ <-. apply problem_rule_missing in H.
  rewrite section_declared in H by exact O. destruct H as (rs & o2 & os & inits & g & r & _ & E & S2 & OO & IE & G).
  unfold parse_problem, parse_problem_from. rewrite T'. cbn [parse_problem_sexp is_kw]. cbn [String.eqb Ascii.eqb Bool.eqb andb].
  unfold problem_rule. rewrite section_declared by exact O.
  assert (K : exists k, opt_res require_keys (match rq' with [] => None | _ => Some (map req_sx rq') end) = Ok k).
  { destruct rq' as [|a rq']; [eexists; reflexivity|]. unfold opt_res. rewrite require_keys_sx by (auto; discriminate). eexists. reflexivity. }
  destruct K as (k & ->). cbn [bind]. rewrite S2, OO. cbn [bind]. cbn zeta.
  destruct (mapR (init_el _) inits) as [init|e] eqn:IE' in IE; [|discriminate].
  cbn [section section_sx is_kw String.eqb Ascii.eqb Bool.eqb]. rewrite IE'. cbn [bind]. rewrite G. reflexivity.
Qed.
