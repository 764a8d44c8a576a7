(** Facts for C77: texts. *)
From Coq Require Import String List Bool Arith Lia Permutation Relations.
From Verif Require Import Py Py_facts Names Names_facts Reqs Order_facts Logic Logic_facts Validation Validation_facts Core Core_facts CoreEq_facts Lexer TypedList UpdateTags Parser.
From Verif Require Import Spec Spec_Core Spec_Parse Spec_Declared Spec_Apart Spec_Listing.
From Verif Require Import GD_facts Parse_facts TypedList_facts Declared_facts Domain_facts Problem_facts Apart_facts FormatDomain_facts Grow_facts Listing_facts.
Import ListNotations.
Open Scope string_scope.
Open Scope list_scope.

(** * Readers that cannot be told apart *)
Record same_ctx (c c' : gctx) : Prop := {
  sc_ext : forall r, has r (g_ext c') = has r (g_ext c);
  sc_params : g_params c' = g_params c;
  sc_const : forall n, g_const c' n = g_const c n;
  sc_vars : forall l, g_vars c' l = g_vars c l }.
Lemma mapR_same {A B} (f g : A -> res B) l : (forall x, In x l -> g x = f x) -> mapR g l = mapR f l.
Proof.
  induction l as [|x l IH]; intros H; [reflexivity|]. cbn [mapR]. rewrite H by now left.
  destruct (f x); [|reflexivity]. cbn [bind]. rewrite IH; auto. intros y Y. apply H. now right.
Qed.
Section Same.
  Context (c c' : gctx) (S : same_ctx c c').
  Lemma resolve_same t : resolve c' t = resolve c t.
  Proof. destruct t; cbn; auto. now rewrite (sc_const _ _ S). Qed.
  Lemma cov_same t : constant_or_variable c' t = constant_or_variable c t.
  Proof. destruct t; cbn; auto. now rewrite (sc_params _ _ S). Qed.
  Lemma terms_same l : mapR (resolve c') l = mapR (resolve c) l.
  Proof. apply mapR_same. intros. apply resolve_same. Qed.
  Lemma covs_same l : mapR (constant_or_variable c') l = mapR (constant_or_variable c) l.
  Proof. apply mapR_same. intros. apply cov_same. Qed.
  Lemma bind_same {A B} (r : res A) (k k' : A -> res B) : (forall a, k' a = k a) -> bind r k' = bind r k.
  Proof. intros H. destruct r; cbn; auto. Qed.
  Lemma atomic_pred_same n l : atomic_pred c' n l = atomic_pred c n l.
  Proof. unfold atomic_pred. apply bind_same. intros ps. rewrite terms_same. apply bind_same. intros rs. now rewrite covs_same. Qed.
  Lemma atomic_eq_same l : atomic_eq c' l = atomic_eq c l.
  Proof.
    unfold atomic_eq. destruct (terms l) as [[|a [|b [|]]]|]; auto. rewrite !resolve_same. apply bind_same. intros ra.
    apply bind_same. intros rb. rewrite (sc_ext _ _ S). apply bind_same. intros _. now rewrite !cov_same.
  Qed.
  Lemma atomic_same x : atomic_formula_term c' x = atomic_formula_term c x.
  Proof. unfold atomic_formula_term. destruct x as [|[|[[]|] l]]; auto; [apply atomic_pred_same|]. destruct (String.eqb _ _); auto using atomic_eq_same. Qed.
  Lemma f_head_same x : f_head c' x = f_head c x.
  Proof.
    unfold f_head. destruct x as [[]|[|[[]|] l]]; auto. apply bind_same. intros ps. rewrite terms_same. apply bind_same. intros rs. now rewrite covs_same.
  Qed.
  Lemma f_exp_same x : f_exp c' x = f_exp c x.
  Proof.
    induction x as [t|l IH] using sexp_ind'; [destruct t; try reflexivity; apply f_head_same|].
    destruct l as [|[[]|] l]; cbn [f_exp]; try apply f_head_same. destruct (arith_op s (length l)); auto.
    rewrite (mapR_same (f_exp c) (f_exp c')); auto. inversion IH as [|? ? _ F]; subst. rewrite Forall_forall in F. exact F.
  Qed.
  Lemma any_req_same l : any_req l (g_ext c') = any_req l (g_ext c).
  Proof. unfold any_req. induction l as [|r l IH]; cbn; auto. now rewrite (sc_ext _ _ S), IH. Qed.
  Lemma gd_same x : gd c' x = gd c x.
  Proof.
    induction x as [t|l IH] using sexp_ind'; [reflexivity|].
    destruct l as [|[[]|] l]; try reflexivity; inversion IH as [|? ? _ F]; subst; rewrite Forall_forall in F; cbn [gd].
    - destruct (String.eqb _ _); [rewrite (mapR_same (gd c) (gd c')) by auto; apply bind_same; intros; now rewrite any_req_same|].
      destruct (String.eqb _ _); [destruct l as [|a [|]]; auto; rewrite F by (left; auto); auto|].
      destruct (String.eqb _ _); [rewrite (mapR_same (gd c) (gd c')) by auto; auto|].
      destruct (String.eqb _ _).
      { destruct l as [|a [|b [|]]]; auto. rewrite (F a), (F b) by (cbn; auto). apply bind_same; intros. apply bind_same; intros. now rewrite any_req_same. }
      destruct (_ || _).
      { destruct (if String.eqb s "exists" then _ else _) as [q r]. destruct l as [|[|vs] [|b [|]]]; auto.
        rewrite (sc_vars _ _ S), (F b) by (cbn; auto). apply bind_same; intros. apply bind_same; intros. now rewrite any_req_same. }
      apply atomic_pred_same.
    - destruct (_ && _); [apply atomic_eq_same|]. destruct (Parser.comparison s); auto. destruct l as [|y [|z [|]]]; auto. now rewrite !f_exp_same.
  Qed.
  Lemma pregd_same x : emptyor_pregd c' x = emptyor_pregd c x.
  Proof. unfold emptyor_pregd. destruct x as [|[|]]; auto using gd_same. Qed.
  Lemma p_effect_same x : p_effect c' x = p_effect c x.
  Proof.
    unfold p_effect. destruct x as [|[|[[]|] l]]; auto using atomic_same.
    destruct (String.eqb _ _); [destruct l as [|a [|]]; auto; now rewrite atomic_same|].
    destruct (assign_op s); [|apply atomic_same]. destruct l as [|y [|z [|]]]; auto. now rewrite f_head_same, f_exp_same.
  Qed.
  Lemma cond_effect_same x : cond_effect c' x = cond_effect c x.
  Proof.
    unfold cond_effect. destruct x as [|[|[[]|] l]]; auto using p_effect_same.
    destruct (String.eqb _ _); [|apply p_effect_same]. rewrite (mapR_same (p_effect c) (p_effect c')); auto. intros. apply p_effect_same.
  Qed.
  Lemma effect_same x : forall top, effect c' top x = effect c top x.
  Proof.
    induction x as [t|l IH] using sexp_ind'; intros top; [apply p_effect_same|].
    destruct l as [|[[]|] l]; try apply p_effect_same; inversion IH as [|? ? _ F]; subst; rewrite Forall_forall in F; cbn [effect].
    destruct (_ && _); [rewrite (mapR_same (effect c false) (effect c' false)) by auto; auto|].
    destruct (String.eqb _ _).
    { destruct l as [|[|vs] [|b [|]]]; auto. now rewrite (sc_vars _ _ S), (F b) by (cbn; auto). }
    destruct (String.eqb _ _); [destruct l as [|a [|b [|]]]; auto; now rewrite gd_same, cond_effect_same|].
    destruct (String.eqb _ _); [|apply p_effect_same].
    destruct l as [|a l]; auto. rewrite (mapR_same (effect c true) (effect c' true)) by auto. apply bind_same. intros. now rewrite (sc_ext _ _ S).
  Qed.
  Lemma emptyor_effect_same x : emptyor_effect c' x = emptyor_effect c x.
  Proof. unfold emptyor_effect. destruct x as [|[|]]; auto using effect_same. Qed.
End Same.

(** * Transformers that cannot be told apart *)
Record same_state (st st' : dstate) : Prop := {
  ss_ext : forall r, has r (s_ext st') = has r (s_ext st);
  ss_params : s_params st' = s_params st;
  ss_const : forall n, dict_get String.eqb n (s_constants st') = dict_get String.eqb n (s_constants st);
  ss_pred : forall n, dict_get String.eqb n (s_predicates st') = dict_get String.eqb n (s_predicates st);
  ss_types : both (fun d d' => forall n, dict_get String.eqb n d' = dict_get String.eqb n d) (s_types st) (s_types st') }.
Lemma state_ctx st st' : same_state st st' -> same_ctx (domain_ctx st) (domain_ctx st').
Proof. intros [A B C _ _]. constructor; cbn; auto. intros n. now rewrite C. Qed.
Lemma state_params d st st' : same_state st st' -> same_state (set_params d st) (set_params d st').
Proof. intros [A B C D E]. constructor; cbn; auto. Qed.
Lemma action_body_same l st st' : same_state st st' -> action_body l st' = action_body l st.
Proof.
  intros S. pose proof (state_ctx _ _ S) as K. unfold action_body.
  destruct l as [|k1 [|x [|k2 [|y [|]]]]]; auto; rewrite ?(pregd_same _ _ K), ?(emptyor_effect_same _ _ K); auto.
Qed.
Definition agrees {A} (m : M A) (st st' : dstate) : Prop := same_state (fst (m st)) (fst (m st')) /\ snd (m st') = snd (m st).
Lemma agrees_ret {A} (r : res A) st st' : same_state st st' -> agrees (ret r) st st'.
Proof. split; auto. Qed.
Lemma agrees_bind {A B} (m : M A) (k : A -> M B) st st' : agrees m st st' ->
  (forall a st st', same_state st st' -> agrees (k a) st st') -> agrees (bindM m k) st st'.
Proof.
  intros [A1 A2] K. unfold agrees, bindM in *. destruct (m st) as [s1 r1], (m st') as [s2 r2]. cbn [fst snd] in *. subst.
  destruct r1; [apply K; auto|]. cbn. auto.
Qed.
Lemma agrees_reads {A} (f : dstate -> res A) st st' : same_state st st' -> f st' = f st -> agrees (reads f) st st'.
Proof. intros S E. split; auto. Qed.
Lemma check_subtypes_same t t' l r : both (fun d d' => forall n, dict_get String.eqb n d' = dict_get String.eqb n d) t t' ->
  check_subtypes t' l r = check_subtypes t l r.
Proof.
  intros B. unfold check_subtypes. destruct r as [|g r]; auto.
  assert (X : forall left right p, subtype_step t' left right p = subtype_step t left right p).
  { intros left right p. unfold subtype_step. destruct p; auto. destruct (memb _ _ _); auto. destruct t as [d|], t' as [d'|]; cbn in B; try tauto; auto. now rewrite B. }
  assert (Y : forall left right, check_subtype t' left right = check_subtype t left right).
  { intros left right. unfold check_subtype.
    assert (Z : loop (subtype_step t' left right) 1 (Some left) = loop (subtype_step t left right) 1 (Some left)).
    { cbn [loop]. rewrite X. destruct (subtype_step t left right (Some left)); auto. }
    rewrite Z. destruct (loop (subtype_step t left right) 1 (Some left)) as [p|r0]; [rewrite X|]; reflexivity. }
  induction l as [|x l IH]; cbn [iterR]; auto. rewrite Y. destruct (check_subtype t x (g :: r)); auto.
Qed.
Lemma head_types_same t t' head : both (fun d d' => forall n, dict_get String.eqb n d' = dict_get String.eqb n d) t t' ->
  forall def m, head_types t' m head def = head_types t m head def.
Proof.
  intros B. induction head as [|a head IH]; intros [|d def] m; auto. cbn [head_types]. destruct a; auto.
  destruct (v_tags v); auto. rewrite (check_subtypes_same t t') by auto. apply bind_same. intros. auto.
Qed.
Lemma derived_callback_same st st' h f : same_state st st' -> derived_callback st' h f = derived_callback st h f.
Proof.
  intros S. unfold derived_callback. rewrite (ss_pred _ _ S). destruct (dict_get _ _ _); auto. apply bind_same. intros _.
  now rewrite (head_types_same _ _ _ (ss_types _ _ S)).
Qed.
Lemma structure_same x st st' : same_state st st' -> agrees (structure_def x) st st'.
Proof.
  intros S. unfold structure_def. destruct x as [|[|k body]]; try (apply agrees_ret; auto).
  destruct (is_kw ":action" k); [|destruct (is_kw ":derived" k); [|now apply agrees_ret]].
  - apply agrees_bind; [|intros; now apply agrees_ret]. unfold action_def.
    destruct body as [|[[]|] [|k1 [|[|ps] body]]]; try (apply agrees_ret; auto).
    destruct (is_kw ":parameters" k1); [|now apply agrees_ret]. apply agrees_bind.
    + unfold action_parameters. apply agrees_bind; [now apply agrees_ret|]. intros tl s1 s2 S1.
      apply agrees_bind; [now apply agrees_ret|]. intros vars s3 s4 S3. apply agrees_bind; [|intros; now apply agrees_ret].
      split; cbn; auto. now apply state_params.
    + intros vs s1 s2 S1. apply agrees_bind; [|intros; now apply agrees_ret]. apply agrees_reads; auto. now apply action_body_same.
  - apply agrees_bind; [|intros; now apply agrees_ret]. unfold derived_def.
    destruct body as [|h [|y [|]]]; try (apply agrees_ret; auto).
    apply agrees_bind; [now apply agrees_ret|]. intros hd s1 s2 S1.
    apply agrees_bind; [apply agrees_reads; auto; apply gd_same; now apply state_ctx|].
    intros f s3 s4 S3. apply agrees_reads; auto. now apply derived_callback_same.
Qed.
Lemma read_same st st' p : same_state st st' -> read st' p = read st p.
Proof.
  intros S. destruct p as [x|o x]; cbn [read]; [apply (structure_same _ _ _ S)|].
  apply structure_same. destruct o as [y|]; cbn [ctx_state]; auto. apply (structure_same _ _ _ S).
Qed.

(** * The lists *)
Lemma mapR_perm {A B} (f : A -> res B) l l' : Permutation l l' -> forall r, mapR f l = Ok r -> exists r', mapR f l' = Ok r' /\ Permutation r r'.
Proof.
  induction 1 as [|x l l' P IH|x y l|l l1 l2 P1 IH1 P2 IH2]; intros r H.
  - eauto.
  - cbn [mapR] in *. apply bind_Ok in H as (a & E & H). apply bind_Ok in H as (b & H & Q). injection Q as <-.
    destruct (IH _ H) as (r' & -> & P'). rewrite E. eexists. split; [reflexivity|]. now constructor.
  - cbn [mapR] in *. apply bind_Ok in H as (a & E & H). apply bind_Ok in H as (b & H & Q). injection Q as <-.
    apply bind_Ok in H as (a' & E' & H). apply bind_Ok in H as (b' & H & Q). injection Q as <-.
    rewrite E, E', H. eexists. split; [reflexivity|]. apply perm_swap.
  - destruct (IH1 _ H) as (r1 & H1 & Q1). destruct (IH2 _ H1) as (r2 & H2 & Q2). exists r2. split; auto. now transitivity r1.
Qed.
Lemma mapR_items {A B} (f : A -> res B) l l' : (forall x, In x l' -> In x l) -> forall r, mapR f l = Ok r ->
  exists r', mapR f l' = Ok r' /\ forall y, In y r' -> In y r.
Proof.
  intros S r H. apply mapR_Ok in H.
  assert (G : forall x, In x l -> exists y, In y r /\ f x = Ok y).
  { clear S. induction H as [|x y l r E F IH]; [intros x []|]. intros z [<-|Z]; [exists y; cbn; auto|]. destruct (IH z Z) as (w & W & Q). exists w. cbn; auto. }
  induction l' as [|x l' IH]; [exists []; split; [reflexivity|intros y []]|].
  destruct IH as (r' & R & Y); [intros z Z; apply S; now right|]. destruct (G x) as (y & Hy & E); [apply S; now left|].
  exists (y :: r'). cbn [mapR]. rewrite E, R. split; [reflexivity|]. intros z [<-|Z]; auto.
Qed.
Lemma dict_get_perm {V} (d d' : list (string * V)) : NoDup (map fst d) -> Permutation d' d ->
  forall n, dict_get String.eqb n d' = dict_get String.eqb n d.
Proof.
  intros N P n. assert (N' : NoDup (map fst d')) by (eapply Permutation_NoDup; [|exact N]; symmetry; now apply Permutation_map).
  destruct (dict_get String.eqb n d) as [v|] eqn:G.
  - apply dict_get_In in G as (k & I & E). apply String.eqb_eq in E. subst k.
    apply dict_get_In_iff; auto using string_eqb_equiv; [now apply NoDupE_string|]. eapply Permutation_in; [symmetry; exact P|exact I].
  - destruct (dict_get String.eqb n d') as [v|] eqn:G'; auto. apply dict_get_In in G' as (k & I & E). apply String.eqb_eq in E. subst k.
    apply (Permutation_in _ P) in I. rewrite (dict_get_In_iff _ string_eqb_equiv n v d) in G; [discriminate|now apply NoDupE_string|exact I].
Qed.
Lemma listing_read l l' r : same_listing l l' -> typed_list_name l = Ok r ->
  exists r', typed_list_name l' = Ok r' /\ Permutation r' r /\ NoDup (map fst r).
Proof.
  intros (g & t & g' & t' & W & W' & P) H. apply (typed_list_name_Ok _ _ _ _ W) in H as (-> & L & N).
  eexists. split; [apply (typed_list_name_Ok _ _ _ _ W'); split; [reflexivity|split]|split].
  - intros a gs I. apply L. eapply Permutation_in; [symmetry; exact P|exact I].
  - eapply Permutation_NoDup; [apply Permutation_map; exact P|exact N].
  - apply Permutation_map. now symmetry.
  - rewrite map_map. exact N.
Qed.
Lemma mapR_keys {A B} (f : A -> res B) (l : list (string * A)) r : mapR (fun p => let* k := f (snd p) in Ok (fst p, k)) l = Ok r -> map fst r = map fst l.
Proof. intros H. apply mapR_Ok in H. induction H as [|p x l r E F IH]; cbn; auto. apply bind_Ok in E as (k & _ & E). injection E as <-. cbn. congruence. Qed.
Lemma objects_listing l l' d : same_listing l l' -> objects_section l = Ok d ->
  exists d', objects_section l' = Ok d' /\ Permutation d' d /\ NoDup (map fst d) /\ (forall n c, In (n, c) d -> fst c = n).
Proof.
  intros S H. unfold objects_section in *. apply bind_Ok in H as (r & R & H). destruct (listing_read _ _ _ S R) as (r' & R' & P & N).
  rewrite R'. cbn [bind]. unfold constants_by_name in *. apply bind_Ok in H as (cs & C & H). injection H as <-.
  destruct (mapR_perm _ _ _ (Permutation_sym P) _ C) as (cs' & C' & P'). rewrite C'. cbn [bind].
  assert (K : map fst cs = map fst r /\ forall n c, In (n, c) cs -> fst c = n).
  { apply mapR_Ok in C. clear - C. induction C as [|p x l r E F IH]; [split; [reflexivity|intros n c []]|]. apply bind_Ok in E as (k & Q & E). injection E as <-. cbn.
    destruct IH as [IH1 IH2]. split; [congruence|]. intros n c [[= <- <-]|I]; [|eauto].
    apply mk_const_Ok in Q as (-> & _). reflexivity. }
  destruct K as [K1 K2].
  assert (N1 : NoDup (map fst cs)) by now rewrite K1.
  assert (N2 : NoDup (map fst cs')) by (eapply Permutation_NoDup; [apply Permutation_map; exact P'|exact N1]).
  rewrite !dict_of_list_id; auto using string_eqb_equiv; try (apply NoDupE_string; assumption).
  exists cs'. split; [reflexivity|]. split; [now symmetry|]. auto.
Qed.
Lemma tlf_ok l out : written_functions l out -> Forall (fun x => exists f, atomic_function_skeleton (fst x) = Ok f) out ->
  exists toks, tl_functions false l = Ok toks.
Proof.
  assert (Z : forall ty items, Forall (fun x : sexp * option string => exists f, atomic_function_skeleton (fst x) = Ok f) (map (fun s => (s, ty)) items) ->
     exists fs, mapR atomic_function_skeleton items = Ok fs).
  { intros ty items. induction items as [|x items IH]; intros F; [exists []; reflexivity|]. inversion F as [|? ? (f & Ef) F']; subst. cbn [fst] in Ef.
    destruct (IH F') as (fs & Q). cbn [mapR]. rewrite Ef, Q. eexists. reflexivity. }
  induction 1 as [tail F|items l out N F W IH]; intros G.
  - destruct tail as [|s tail]; [eexists; reflexivity|]. destruct (Z _ _ G) as (fs & Q).
    rewrite <- (app_nil_r (s :: tail)). rewrite tlf_items by (auto; discriminate). rewrite Q. eexists. reflexivity.
  - apply Forall_app in G as [G1 G2]. destruct (Z _ _ G1) as (fs & Q). destruct (IH G2) as (ts & T).
    rewrite tlf_items by auto. rewrite Q. cbn [bind]. cbn. rewrite T. eexists. reflexivity.
Qed.
Lemma functions_written l out fs : l <> [] -> written_functions l out ->
  Forall2 (fun x f => atomic_function_skeleton (fst x) = Ok (fst f) /\ snd x = snd f) out fs -> NoDupE atom_eqb (map fst fs) ->
  functions_section l = Ok fs.
Proof.
  intros NE W F N. destruct (tlf_ok l out W) as (toks & T).
  { apply Forall_forall. intros x X. clear - F X. induction F as [|a b l m [H _] F IH]; [destruct X|]. destruct X as [<-|X]; eauto. }
  unfold functions_section. destruct l as [|s l]; [congruence|]. rewrite T. cbn [bind].
  destruct (tlf_assigned _ _ W _ T) as (groups & tail & -> & G & A).
  assert (E : fs = map (fun kv => (fst kv, hd_error (snd kv))) (assigned groups tail) /\ map fst fs = map fst (assigned groups tail)).
  { clear - F A. revert fs F. induction A as [|x [a gs] l' m (E1 & E2 & _) A IH]; intros fs F; inversion F as [|? [f ty] ? fs' [H1 H2] F']; subst; auto.
    cbn [fst snd] in *. destruct (IH _ F') as [-> Q]. split; cbn; congruence. }
  destruct E as [E1 E2]. rewrite parse_typed_list_all. rewrite (add_all_nodup atom_eqb atom_eqb_equiv).
  - cbn [app]. rewrite <- E2. rewrite (dedup_id _ atom_eqb_equiv _ N). rewrite E1, !map_length, Nat.eqb_refl. cbn [bind]. unfold typed_list_of_names. cbn [ti_items].
    assert (M : mapR (fun kv : atom * list string => match snd kv with [] => Ok (fst kv, None)
       | [g] => Ok (fst kv, Some g) | _ => Err ValueError end) (assigned groups tail)
       = Ok (map (fun kv => (fst kv, hd_error (snd kv))) (assigned groups tail))).
    { clear - A. induction A as [|x [a gs] l' m (_ & _ & L) A IH]; auto. cbn [snd] in L. cbn [mapR map fst snd bind].
      destruct gs as [|g [|]]; cbn in L; try lia; cbn; rewrite IH; reflexivity. }
    rewrite M. reflexivity.
  - intros a gs I. split; auto. unfold assigned in I. apply in_app_or in I as [I|I].
    + apply in_flat_map in I as ([it ty] & Gi & I). apply in_map_iff in I as (x & [= <- <-] & _).
      rewrite Forall_forall in G. specialize (G _ Gi). cbn in G. subst. constructor; auto using legal_number_type.
    + apply in_map_iff in I as (x & [= <- <-] & _). constructor.
  - apply assigned_nodups.
  - constructor.
Qed.
Lemma functions_keys l fs : functions_section l = Ok fs -> NoDupE atom_eqb (map fst fs).
Proof. intros H. apply (functions_ok _ _ H). Qed.
Lemma functions_listing l l' fs : same_functions l l' -> functions_section l = Ok fs ->
  exists fs', functions_section l' = Ok fs' /\ Permutation fs' fs /\ NoDupE atom_eqb (map fst fs).
Proof.
  intros (out & out' & W & W' & P) H. pose proof (functions_keys _ _ H) as N. pose proof (functions_In _ _ _ H W) as F.
  assert (X : exists fs', Permutation fs' fs /\ Forall2 (fun x f => atomic_function_skeleton (fst x) = Ok (fst f) /\ snd x = snd f) out' fs').
  { clear - F P. revert fs F. induction P as [|x l m P IH|x y l|l m n P1 IH1 P2 IH2]; intros fs F.
    - inversion F; subst. exists []. split; constructor.
    - inversion F as [|? f ? fs0 H F']; subst. destruct (IH _ F') as (q & Q & G). exists (f :: q). split; constructor; auto.
    - inversion F as [|? f ? fs0 H F']; subst. inversion F' as [|? f' ? fs1 H' F'']; subst. exists (f' :: f :: fs1). split; [apply perm_swap|]. constructor; auto.
    - destruct (IH1 _ F) as (q & Q & G). destruct (IH2 _ G) as (q' & Q' & G'). exists q'. split; auto. now transitivity q. }
  destruct X as (fs' & PF & F'). exists fs'. split; [|auto]. apply (functions_written _ out'); auto.
  - intros ->. assert (out' = []) as ->. { clear - W'. remember [] as e. destruct W' as [tail G|items l o N G W]; [now subst|]. destruct items; [congruence|discriminate]. }
    symmetry in P. apply Permutation_nil in P. subst out. inversion F; subst.
    unfold functions_section in H. destruct l as [|x l]; [discriminate|]. exfalso. clear - W. remember (x :: l) as xs eqn:E. remember [] as e eqn:E'.
    destruct W as [tail G|items l0 o N G W]; [subst; discriminate|]. destruct items; [congruence|discriminate].
  - eapply NoDupE_perm; [apply atom_eqb_equiv| |exact N]. apply Permutation_map. now symmetry.
Qed.

(** * The declarations of a domain *)
Lemma mapO_items {A B} (f : A -> option B) l r : mapO f l = Some r ->
  (forall y, In y r <-> exists x, In x l /\ f x = Some y) /\ forall x, In x l -> exists y, f x = Some y.
Proof.
  revert r. induction l as [|x l IH]; intros r H; cbn in H.
  - injection H as <-. split; [intros y; split; [intros []|intros (x & [] & _)]|intros x []].
  - destruct (f x) as [y|] eqn:E; [|discriminate]. destruct (mapO f l) as [q|] eqn:Q; [|discriminate]. injection H as <-.
    destruct (IH _ eq_refl) as [I1 I2]. split.
    + intros z. cbn. rewrite I1. split.
      * intros [<-|(x' & X & Z)]; eauto.
      * intros (x' & [<-|X] & Z); [left; congruence|right; eauto].
    + intros z [<-|Z]; eauto.
Qed.
Lemma mapO_some {A B} (f : A -> option B) l : (forall x, In x l -> exists y, f x = Some y) -> exists r, mapO f l = Some r.
Proof.
  induction l as [|x l IH]; intros H; [exists []; reflexivity|]. destruct (H x) as (y & E); [now left|].
  destruct IH as (r & R); [intros z Z; apply H; now right|]. cbn. rewrite E, R. eauto.
Qed.
Lemma keys_listing l l' rs : same_items l l' -> require_keys l = Ok rs -> exists rs', require_keys l' = Ok rs' /\ same_items rs rs'.
Proof.
  intros S H. unfold require_keys in *. destruct l as [|x l]; [discriminate|]. destruct (mapO require_key (x :: l)) as [q|] eqn:Q; [|discriminate].
  injection H as <-. destruct (mapO_items _ _ _ Q) as [I1 I2].
  destruct (mapO_some require_key l') as (q' & Q'); [intros z Z; apply I2; now apply S|].
  destruct l' as [|x' l']; [exfalso; apply (S x); now left|]. rewrite Q'. exists q'. split; [reflexivity|].
  destruct (mapO_items _ _ _ Q') as [J1 _]. intros y. rewrite I1, J1. split; intros (z & Z & E); exists z; split; auto; now apply S.
Qed.
Lemma has_items rs rs' r : same_items rs rs' -> has r rs' = has r rs.
Proof. intros S. apply eq_true_iff_eq. unfold has. rewrite !memb_req_In. apply S. Qed.
Lemma extend_items rs rs' : same_items rs rs' -> forall r, has r (extend_reqs rs') = has r (extend_reqs rs).
Proof.
  intros S r. apply has_items. intros x. split; apply Grow_facts.extend_incl; intros y; apply S.
Qed.

Lemma types_run l st d : types_section l st = (set_types (Some d) st, Ok d) <->
  s_types st = None /\ exists r, typed_list_name l = Ok r /\ d = map (fun kv => (fst kv, match snd kv with
                                    | Some p => if String.eqb p "object" then None else Some p
                                    | None => None
                                    end)) r
   /\ negb (existsb (fun kv => match snd kv with Some _ => true | None => false end) r) || has TYPING (s_ext st) = true.
Proof.
  unfold types_section, bindM, ret, reads, modify. destruct (typed_list_name l) as [r|e].
  - destruct (negb _ || _) eqn:C; cbn [check].
    + destruct (s_types st) as [t|] eqn:T; cbn [check].
      * split; [intros H; injection H; discriminate|]. intros (H & _). discriminate.
      * split.
        -- intros H. injection H as H1 H2. split; auto. exists r. auto.
        -- intros (_ & r' & [= <-] & -> & _). reflexivity.
    + split; [intros H; injection H; discriminate|]. intros (_ & r' & [= <-] & _ & Q). congruence.
  - split; [discriminate|]. intros (_ & r' & H & _). discriminate.
Qed.
Lemma existsb_perm {A} (f : A -> bool) l l' : Permutation l' l -> existsb f l' = existsb f l.
Proof.
  intros P. apply eq_true_iff_eq. rewrite !existsb_exists. split; intros (x & X & E); exists x; split; auto; [exact (Permutation_in _ P X)|exact (Permutation_in _ (Permutation_sym P) X)].
Qed.
Lemma types_listing l l' st st' d : same_listing l l' -> same_state st st' -> types_section l st = (set_types (Some d) st, Ok d) ->
  exists d', types_section l' st' = (set_types (Some d') st', Ok d') /\ Permutation d' d /\ NoDup (map fst d).
Proof.
  intros S SS H. apply types_run in H as (T & r & R & -> & C). destruct (listing_read _ _ _ S R) as (r' & R' & P & N).
  eexists. split; [apply types_run; split|split].
  - pose proof (ss_types _ _ SS) as B. rewrite T in B. destruct (s_types st'); auto. destruct B.
  - exists r'. split; [exact R'|]. split; [reflexivity|]. rewrite (existsb_perm _ _ _ P), (ss_ext _ _ SS). exact C.
  - apply Permutation_map. exact P.
  - rewrite map_map. exact N.
Qed.
(** predicates: their names tell them apart *)
Lemma skeleton_name x n ts : atomic_formula_skeleton x = Ok (n, ts) -> exists vs, x = SList (name_sx n :: vs).
Proof.
  unfold atomic_formula_skeleton. destruct x as [|[|[[]|] vs]]; try discriminate. intros H. apply bind_Ok in H as (tl & _ & H).
  apply bind_Ok in H as (vars & _ & H). apply bind_Ok in H as (q & Q & H). apply mk_pred_iff in Q as (-> & _). injection H as <- _. exists vs. reflexivity.
Qed.
Lemma preds_once l ps : declared_once l -> mapR atomic_formula_skeleton l = Ok ps ->
  forall p q, In p ps -> In q ps -> fst p = fst q -> p = q.
Proof.
  intros D H p q P Q E. apply mapR_Ok in H.
  destruct (Declared_facts.Forall2_In_r _ _ _ _ H P) as (x & X & EX). destruct (Declared_facts.Forall2_In_r _ _ _ _ H Q) as (y & Y & EY).
  destruct p as [n ts], q as [n' ts']. cbn in E. subst n'. destruct (skeleton_name _ _ _ EX) as (vs & ->). destruct (skeleton_name _ _ _ EY) as (ws & ->).
  rewrite (D _ _ _ X Y) in EX. congruence.
Qed.
Lemma dict_of_once (ps : list atom) : (forall p q, In p ps -> In q ps -> fst p = fst q -> p = q) -> forall n v,
  dict_get String.eqb n (dict_of_list String.eqb (map (fun p : atom => (fst p, p)) ps)) = Some v <-> In v ps /\ fst v = n.
Proof.
  intros O n v. rewrite (dict_get_of_list _ string_eqb_equiv). split.
  - intros H. apply dict_get_In in H as (k & I & E). apply String.eqb_eq in E. subst k. rewrite <- in_rev in I.
    apply in_map_iff in I as (p & [= <- <-] & I). auto.
  - intros [I E]. destruct (dict_get String.eqb n (rev (map (fun p : atom => (fst p, p)) ps))) as [w|] eqn:G.
    + apply dict_get_In in G as (k & J & Q). apply String.eqb_eq in Q. subst k. rewrite <- in_rev in J.
      apply in_map_iff in J as (p & [= Q <-] & J). f_equal. apply O; congruence.
    + exfalso. assert (M : memb String.eqb n (map fst (rev (map (fun p : atom => (fst p, p)) ps))) = false).
      { rewrite dict_get_memb. now rewrite G. }
      rewrite memb_false in M. specialize (M n). rewrite String.eqb_refl in M. discriminate M.
      apply in_map_iff. exists (n, v). split; auto. rewrite <- in_rev. apply in_map_iff. exists v. subst; auto.
Qed.
Lemma preds_listing l l' ps : declared_once l -> same_items l l' -> mapR atomic_formula_skeleton l = Ok ps ->
  exists ps', mapR atomic_formula_skeleton l' = Ok ps' /\ same_items ps ps' /\ (forall p q, In p ps -> In q ps -> fst p = fst q -> p = q)
    /\ forall n, dict_get String.eqb n (dict_of_list String.eqb (map (fun p : atom => (fst p, p)) ps'))
               = dict_get String.eqb n (dict_of_list String.eqb (map (fun p : atom => (fst p, p)) ps)).
Proof.
  intros D S H. destruct (mapR_items _ l l' (fun x => proj1 (S x)) _ H) as (ps' & H' & I1).
  destruct (mapR_items _ l' l (fun x => proj2 (S x)) _ H') as (ps2 & H2 & I2). rewrite H in H2. injection H2 as <-.
  pose proof (preds_once _ _ D H) as O.
  assert (O' : forall p q, In p ps' -> In q ps' -> fst p = fst q -> p = q) by (intros; apply O; auto).
  exists ps'. split; [exact H'|]. split; [intros x; split; auto|]. split; [exact O|]. intros n.
  destruct (dict_get String.eqb n (dict_of_list String.eqb (map (fun p : atom => (fst p, p)) ps))) as [v|] eqn:G.
  - apply dict_of_once; auto. apply dict_of_once in G as [G1 G2]; auto.
  - destruct (dict_get String.eqb n (dict_of_list String.eqb (map (fun p : atom => (fst p, p)) ps'))) as [v|] eqn:G'; auto.
    apply dict_of_once in G' as [G1 G2]; auto. assert (X : dict_get String.eqb n (dict_of_list String.eqb (map (fun p : atom => (fst p, p)) ps)) = Some v) by (apply dict_of_once; auto).
    congruence.
Qed.
Lemma init_same : same_state init_dstate init_dstate.
Proof. constructor; cbn; auto. Qed.
Lemma optM_some {B} (f : list sexp -> M B) x st st1 y : f x st = (st1, Ok y) -> optM f (Some x) st = (st1, Ok (Some y)).
Proof. intros H. cbn [optM]. unfold bindM, ret. now rewrite H. Qed.
Lemma optM_inv {B} (f : list sexp -> M B) o st st1 y : optM f o st = (st1, Ok y) ->
  match o, y with None, None => st1 = st | Some x, Some z => f x st = (st1, Ok z) | _, _ => False end.
Proof.
  destruct o as [x|]; cbn [optM].
  - intros H. apply bindM_Ok in H as (s & a & R & H). apply ret_Ok in H as [-> H]. injection H as <-. exact R.
  - intros H. apply ret_Ok in H as [-> H]. injection H as <-. reflexivity.
Qed.
Lemma step_reqs rq rq' st st' st1 r : both same_items rq rq' -> same_state st st' -> optM requirements rq st = (st1, Ok r) ->
  exists st1' r', optM requirements rq' st' = (st1', Ok r') /\ same_state st1 st1' /\ both same_items r r'.
Proof.
  intros B S H. apply optM_inv in H. destruct rq as [l|], rq' as [l'|], r as [r|]; cbn in B; try tauto.
  - apply requirements_st in H as (ks & K & -> & ->). destruct (keys_listing _ _ _ B K) as (ks' & K' & Q).
    eexists _, _. split; [apply optM_some; unfold requirements, bindM, ret, modify; rewrite K'; reflexivity|]. split.
    + destruct S as [A1 A2 A3 A4 A5]. constructor; cbn; auto. now apply extend_items.
    + intros z. apply same_items_dedup; [apply req_eqb_equiv|intros x y _ _ E; now apply req_eqb_eq|exact Q].
  - subst. exists st', None. cbn. auto.
Qed.
Definition types_rel (t t' : option types_dict) : Prop := both (fun d d' => Permutation d' d /\ NoDup (map fst d)) t t'.
Lemma step_types ty ty' st st' st1 t : both same_listing ty ty' -> same_state st st' -> optM types_section ty st = (st1, Ok t) ->
  exists st1' t', optM types_section ty' st' = (st1', Ok t') /\ same_state st1 st1' /\ types_rel t t'.
Proof.
  intros B S H. apply optM_inv in H. destruct ty as [l|], ty' as [l'|], t as [t|]; cbn in B; try tauto.
  - pose proof (types_st _ _ _ _ H) as [-> _]. destruct (types_listing _ _ _ _ _ B S H) as (d' & D & P & N).
    eexists _, _. split; [apply optM_some; exact D|]. split.
    + destruct S as [A1 A2 A3 A4 A5]. constructor; cbn; auto. now apply dict_get_perm.
    + cbn. auto.
  - subst. exists st', None. cbn. auto.
Qed.
Lemma step_consts cs cs' st st' st1 c : both same_listing cs cs' -> same_state st st' -> optM constants_section cs st = (st1, Ok c) ->
  exists st1' c', optM constants_section cs' st' = (st1', Ok c') /\ same_state st1 st1' /\ both (fun l l' => Permutation l' l /\ told_apart const_eqb l) c c'.
Proof.
  intros B S H. apply optM_inv in H. destruct cs as [l|], cs' as [l'|], c as [c|]; cbn in B; try tauto.
  - apply constants_st in H as (d & D & -> & ->). destruct (objects_listing _ _ _ B D) as (d' & D' & P & N & K).
    eexists _, _. split; [apply optM_some|split].
    + unfold constants_section, bindM, ret, modify. unfold objects_section in D'. destruct (typed_list_name l'); [|discriminate].
      cbn [bind] in D'. rewrite D'. reflexivity.
    + destruct S as [A1 A2 A3 A4 A5]. constructor; cbn; auto. now apply dict_get_perm.
    + cbn. split; [now apply Permutation_map|]. intros x y X Y E. apply in_map_iff in X as ([n x'] & Q & X). apply in_map_iff in Y as ([m y'] & Q' & Y).
      cbn in Q, Q'. subst x' y'. unfold const_eqb in E. apply String.eqb_eq in E. pose proof (K _ _ X). pose proof (K _ _ Y). subst n m. rewrite E in X.
      apply (dict_get_In_iff _ string_eqb_equiv) in X; [|now apply NoDupE_string]. apply (dict_get_In_iff _ string_eqb_equiv) in Y; [|now apply NoDupE_string]. congruence.
  - subst. exists st', None. cbn. auto.
Qed.
Lemma step_preds ps ps' st st' st1 p : both same_predicates ps ps' -> same_state st st' -> optM predicates_section ps st = (st1, Ok p) ->
  exists st1' p', optM predicates_section ps' st' = (st1', Ok p') /\ same_state st1 st1' /\ both (fun l l' => same_items l l' /\ told_apart atom_eqb l) p p'.
Proof.
  intros B S H. apply optM_inv in H. destruct ps as [l|], ps' as [l'|], p as [p|]; cbn in B; try tauto.
  - destruct B as [B D]. apply predicates_st in H as (NE & K & ->). destruct (preds_listing _ _ _ D B K) as (q & Q & I & O & G).
    eexists _, _. split; [apply optM_some|split].
    + unfold predicates_section, bindM, ret, modify. destruct l' as [|x' l']; [|rewrite Q; reflexivity].
      destruct l as [|x l]; [congruence|]. exfalso. apply (B x). now left.
    + destruct S as [A1 A2 A3 A4 A5]. constructor; cbn; auto.
    + cbn. split; [exact I|]. intros x y X Y E. apply O; auto. unfold atom_eqb in E. apply andb_true_iff in E as [E _]. now apply String.eqb_eq.
  - subst. exists st', None. cbn. auto.
Qed.
Lemma same_items_perm {A} (l l' : list A) : Permutation l' l -> same_items l l'.
Proof. intros P x. split; [apply (Permutation_in _ P)|apply (Permutation_in _ (Permutation_sym P))]. Qed.
Lemma both_list {A} (R : list A -> list A -> Prop) o o' : R [] [] -> both R o o' -> R (opt_list o) (opt_list o').
Proof. destruct o, o'; cbn; tauto. Qed.
Lemma opt_fun_listing fs fs' f : both same_functions fs fs' -> opt_fun fs = Ok f ->
  exists f', opt_fun fs' = Ok f' /\ both (fun l l' => Permutation l' l /\ NoDupE atom_eqb (map fst l)) f f'.
Proof.
  intros B H. destruct fs as [l|], fs' as [l'|]; cbn in B; try tauto; cbn [opt_fun] in *.
  - apply bind_Ok in H as (g & G & H). injection H as <-. destruct (functions_listing _ _ _ B G) as (g' & -> & P & N). cbn [bind]. exists (Some g'). cbn. auto.
  - injection H as <-. exists None. cbn. auto.
Qed.

Theorem domain_listing s s' n rq rq' ty ty' cs cs' ps ps' fs fs' defs d :
  domain_text s n (declarations rq ty cs ps fs ++ defs) -> domain_text s' n (declarations rq' ty' cs' ps' fs' ++ defs) ->
  Forall definition defs ->
  both same_items rq rq' -> both same_listing ty ty' -> both same_listing cs cs' -> both same_predicates ps ps' -> both same_functions fs fs' ->
  parse_domain_fresh s = Ok d -> exists d', parse_domain_fresh s' = Ok d' /\ domain_eqb d' d = true.
Proof.
  intros T T' F Hr Ht Hc Hp Hf H.
  apply (accepted_iff _ _ _ _ _ _ _ _ T F) in H as (st1 & r & t & c & p & f & ys & Hh & Ef & Hy & Hd).
  unfold header in Hh. apply bindM_Ok in Hh as (s1 & r0 & R & Hh). apply bindM_Ok in Hh as (s2 & t0 & Ty & Hh).
  apply bindM_Ok in Hh as (s3 & c0 & C & Hh). apply bindM_Ok in Hh as (s4 & p0 & P & Hh). apply ret_Ok in Hh as [-> Q].
  assert (Q1 : r0 = r /\ t0 = t /\ c0 = c /\ p0 = p) by (injection Q; auto). destruct Q1 as (-> & -> & -> & ->). clear Q.
  destruct (step_reqs _ _ _ _ _ _ Hr init_same R) as (s1' & r' & R' & S1 & B1).
  destruct (step_types _ _ _ _ _ _ Ht S1 Ty) as (s2' & t' & Ty' & S2 & B2).
  destruct (step_consts _ _ _ _ _ _ Hc S2 C) as (s3' & c' & C' & S3 & B3).
  destruct (step_preds _ _ _ _ _ _ Hp S3 P) as (s4' & p' & P' & S4 & B4).
  destruct (opt_fun_listing _ _ _ Hf Ef) as (f' & Ef' & B5).
  assert (M : exists d', mk_domain n (opt_list r') t' (opt_list c') (opt_list p') (derived_in ys) (opt_list f') (actions_in ys) = Ok d' /\ domain_eqb d' d = true).
  { apply (both_list _) in B1; [|intros x; tauto]. apply (both_list (fun l l' => Permutation l' l /\ told_apart const_eqb l)) in B3; [|split; [constructor|intros x y []]].
    apply (both_list (fun l l' => same_items l l' /\ told_apart atom_eqb l)) in B4; [|split; [intros x; tauto|intros x y []]].
    apply (both_list (fun l l' => Permutation l' l /\ NoDupE atom_eqb (map fst l))) in B5; [|split; [constructor|constructor]].
    assert (X : exists dt dt', Permutation dt' dt /\ NoDup (map fst dt) /\ (forall rs cs ps dps fs acts, mk_domain n rs t cs ps dps fs acts = mk_domain n rs (Some dt) cs ps dps fs acts)
       /\ forall rs cs ps dps fs acts, mk_domain n rs t' cs ps dps fs acts = mk_domain n rs (Some dt') cs ps dps fs acts).
    { destruct t as [dt|], t' as [dt'|]; cbn in B2; try tauto; [exists dt, dt'|exists [], []]; repeat split; try tauto; constructor. }
    destruct X as (dt & dt' & Pt & Nt & E & E'). rewrite E in Hd. rewrite E'.
    eapply mk_domain_listing; [exact Nt|apply B5|exact B1|exact Pt|apply B5| | | | |exact Hd]; try tauto.
    - intros z. apply same_items_dedup; [apply const_eqb_equiv|apply B3|apply same_items_perm, B3].
    - intros z. apply same_items_dedup; [apply atom_eqb_equiv|apply B4|apply B4]. }
  destruct M as (d' & Hd' & E). exists d'. split; [|exact E].
  apply (accepted_iff _ _ _ _ _ _ _ _ T' F). exists s4', r', t', c', p', f', ys. split; [|split; [exact Ef'|split; [|exact Hd']]].
  - unfold header, bindM, ret. rewrite R', Ty', C', P'. reflexivity.
  - rewrite <- Hy. apply map_ext. intros x. now apply read_same.
Qed.

(** * Problems *)
Lemma atom_name_same objs objs' x : (forall n, dict_get String.eqb n objs' = dict_get String.eqb n objs) -> atomic_formula_name objs' x = atomic_formula_name objs x.
Proof.
  intros H. unfold atomic_formula_name. destruct x as [|[|[[]|] args]]; auto. destruct (of_opt (mapO word args)); auto. cbn [bind].
  erewrite mapR_same; [reflexivity|]. intros y _. cbn. now rewrite H.
Qed.
Lemma init_el_same objs objs' x : (forall n, dict_get String.eqb n objs' = dict_get String.eqb n objs) -> init_el objs' x = init_el objs x.
Proof.
  intros H. unfold init_el. destruct x as [|[|[[]|] args]]; auto. rewrite (atom_name_same objs objs' _ H).
  destruct (String.eqb _ _); auto. destruct args as [|y [|]]; auto. now rewrite (atom_name_same objs objs' _ H).
Qed.
Lemma rest_sections o1 o2 inits rest o1' o2' inits' g o5 :
  opt_section ":requirements" o1 ++ opt_section ":objects" o2 ++ section_sx ":init" inits :: rest = problem_sections o1' o2' inits' g o5 ->
  o1' = o1 /\ o2' = o2 /\ inits' = inits /\ rest = section_sx ":goal" [g] :: opt_section ":metric" o5.
Proof.
  unfold problem_sections. destruct o1, o1', o2, o2'; cbn; intros [=]; subst; auto.
Qed.
Theorem problem_listing s s' n dn rq rq' os os' inits inits' rest p :
  problem_text s n dn (opt_section ":requirements" rq ++ opt_section ":objects" os ++ section_sx ":init" inits :: rest) ->
  problem_text s' n dn (opt_section ":requirements" rq' ++ opt_section ":objects" os' ++ section_sx ":init" inits' :: rest) ->
  both same_items rq rq' -> both same_listing os os' -> same_items inits inits' ->
  parse_problem s = Ok p -> exists p', parse_problem s' = Ok p' /\ problem_eqb p' p = true.
Proof.
  intros T T' Hr Ho Hi H. rewrite (parse_problem_text _ _ _ _ T) in H. rewrite (parse_problem_text _ _ _ _ T').
  apply problem_rule_inv in H as (o1 & o2 & ii & g & o5 & rs & od & init & goal & m & E & R & O & I & G & Me & H).
  apply rest_sections in E as (-> & -> & -> & ->).
  change (opt_section ":requirements" rq' ++ opt_section ":objects" os' ++ section_sx ":init" inits' :: section_sx ":goal" [g] :: opt_section ":metric" o5)
    with (problem_sections rq' os' inits' g o5).
  rewrite problem_rule_sections.
  assert (R' : exists rs', opt_res require_keys rq' = Ok rs' /\ both same_items rs rs').
  { destruct rq as [l|], rq' as [l'|]; cbn in Hr; try tauto; unfold opt_res in *.
    - apply bind_Ok in R as (k & K & R). injection R as <-. destruct (keys_listing _ _ _ Hr K) as (k' & -> & Q). exists (Some k'). cbn. auto.
    - injection R as <-. exists None. cbn. auto. }
  destruct R' as (rs' & -> & Br). cbn [bind].
  assert (O' : exists od', opt_res objects_section os' = Ok od' /\ both (fun d d' => Permutation d' d /\ NoDup (map fst d)) od od').
  { destruct os as [l|], os' as [l'|]; cbn in Ho; try tauto; unfold opt_res in *.
    - apply bind_Ok in O as (k & K & O). injection O as <-. destruct (objects_listing _ _ _ Ho K) as (k' & -> & Q & N & _). exists (Some k'). cbn. auto.
    - injection O as <-. exists None. cbn. auto. }
  destruct O' as (od' & -> & Bo). cbn [bind].
  set (objs := match od with Some d => d | None => [] end) in *. set (objs' := match od' with Some d => d | None => [] end).
  assert (K : forall x, dict_get String.eqb x objs' = dict_get String.eqb x objs).
  { destruct od as [d|], od' as [d'|]; cbn in Bo; try tauto; subst objs objs'; auto. intros x. now apply dict_get_perm. }
  rewrite (mapR_same (init_el objs) (init_el objs') inits') by (intros x _; now apply init_el_same).
  destruct (mapR_items _ inits inits' (fun x => proj1 (Hi x)) _ I) as (init' & I' & J1).
  destruct (mapR_items _ inits' inits (fun x => proj2 (Hi x)) _ I') as (i2 & I2 & J2). rewrite I in I2. injection I2 as <-.
  rewrite I'. cbn [bind]. rewrite G. cbn [bind]. rewrite Me. cbn [bind].
  eapply (mk_problem_listing _ None); [exact Logic.I|exact Br| |intros x; split; auto|exact H].
  destruct od as [d|], od' as [d'|]; cbn in Bo; try tauto; [|intros x; tauto]. apply same_items_perm, Permutation_map, Bo.
Qed.
