(** Domains with their sets in another iteration order: equal, and expressible like before. *)
From Coq Require Import String List Bool Arith ZArith Lia Permutation.
From Verif Require Import Py Names Reqs Logic Built Validation Core Lexer Parser.
From Verif Require Import Spec Spec_Core Spec_Parse Spec_Print Spec_Text Spec_Domain Spec_Orders.
From Verif Require Import Py_facts Logic_facts Names_facts Ops_facts Built_facts NF_facts Order_facts CoreEq_facts Core_facts TextExact_facts.
From Verif Require Import Grow_facts CopyText_facts Orders_facts.
Import ListNotations.
Open Scope string_scope.
Open Scope list_scope.

(** ** lookups in permuted lists *)
Lemma find_spec {A} (f : A -> bool) l : match find f l with Some x => In x l /\ f x = true | None => forall x, In x l -> f x = false end.
Proof. destruct (find f l) eqn:E; [now apply find_some in E|now apply find_none]. Qed.
Lemma find_const n l m : Permutation l m -> NoDupE const_eqb l ->
  find (fun c : const => String.eqb (fst c) n) l = find (fun c : const => String.eqb (fst c) n) m.
Proof.
  intros P N. pose proof (find_spec (fun c : const => String.eqb (fst c) n) l) as A. pose proof (find_spec (fun c : const => String.eqb (fst c) n) m) as B.
  destruct (find _ l) as [x|], (find _ m) as [y|]; auto.
  - destruct A as [A1 A2], B as [B1 B2]. apply (Permutation_in y (Permutation_sym P)) in B1. f_equal.
    apply String.eqb_eq in A2, B2. clear P. induction l as [|z l IH]; [contradiction|]. inversion N as [|? ? M N']; subst. rewrite memb_false in M.
    destruct A1 as [->|A1], B1 as [->|B1]; auto.
    + exfalso. specialize (M y B1). unfold const_eqb in M. apply String.eqb_neq in M. congruence.
    + exfalso. specialize (M x A1). unfold const_eqb in M. apply String.eqb_neq in M. congruence.
  - destruct A as [A1 A2]. apply (Permutation_in x P) in A1. rewrite (B x A1) in A2. discriminate.
  - destruct B as [B1 B2]. apply (Permutation_in y (Permutation_sym P)) in B1. rewrite (A y B1) in B2. discriminate.
Qed.
Lemma params_order vs ws n : Forall2 var_order vs ws ->
  opt_order var_order (dict_get String.eqb n (map (fun v => (v_name v, v)) vs)) (dict_get String.eqb n (map (fun v => (v_name v, v)) ws)).
Proof. induction 1 as [|v w vs ws [N P] F IH]; cbn; auto. rewrite <- N. destruct (String.eqb n (v_name v)); auto. cbn. split; auto. Qed.
Lemma known_order d d' vs ws : domain_order d d' -> NoDupE const_eqb (d_constants d) -> Forall2 var_order vs ws ->
  ctx_order (known d vs) (known d' ws).
Proof.
  intros O N F. split; [|split]; cbn [known g_ext g_params g_const].
  - apply extend_incl. intros r. apply Permutation_in. apply O.
  - intros n. now apply params_order.
  - intros n. pose proof (find_const n _ _ (do_constants _ _ O) N) as E. unfold const in E. now rewrite E.
Qed.

(** ** bare and scoped *)
Lemma bare_order f : forall g, form_order f g -> form_order (bare f) (bare g).
Proof.
  assert (T : forall t u, term_order t u -> term_order (bare_term t) (bare_term u)).
  { intros [n g|v] [n' g'|w]; cbn; auto. intros [N _]. split; cbn; auto. }
  assert (TS : forall ts us, Forall2 term_order ts us -> Forall2 term_order (map bare_term ts) (map bare_term us)) by (induction 1; cbn; auto).
  assert (X : forall ops m, Forall (fun f => forall g, form_order f g -> form_order (bare f) (bare g)) ops -> Forall2 form_order ops m -> Forall2 form_order (map bare ops) (map bare m)).
  { intros ops m H F. induction F; cbn; auto. inversion H; subst. auto. }
  induction f using form_ind'; intros g0 O; inversion O; subst; cbn [bare]; constructor; auto.
Qed.
Lemma bare_never f : never_mixed f -> never_mixed (bare f).
Proof.
  induction f using form_ind'; cbn [bare never_mixed]; auto; rewrite ?fold_and_Forall; try tauto.
  - intros N. apply Forall_forall. intros g Hg. apply in_map_iff in Hg as (x & <- & Hx). rewrite Forall_forall in *. auto.
  - intros N. apply Forall_forall. intros g Hg. apply in_map_iff in Hg as (x & <- & Hx). rewrite Forall_forall in *. auto.
Qed.
Definition scope_order (s s' : scope) : Prop := forall n, same_set (s n) (s' n).
Lemma enter_order vs ws s s' : (forall w, In w ws -> exists v, In v vs /\ var_order v w) -> (forall v, In v vs -> exists w, In w ws /\ var_order v w) ->
  repeats_same vs -> scope_order s s' -> scope_order (enter vs s) (enter ws s').
Proof.
  intros A B R S n. unfold enter.
  pose proof (find_spec (fun v => String.eqb (v_name v) n) vs) as X. pose proof (find_spec (fun v => String.eqb (v_name v) n) ws) as Y.
  destruct (find _ vs) as [v|], (find _ ws) as [w|].
  - destruct X as [X1 X2], Y as [Y1 Y2]. destruct (A w Y1) as (v' & V1 & V2 & V3). apply String.eqb_eq in X2, Y2. intros g. rewrite <- (perm_set _ _ V3).
    apply R; auto. congruence.
  - destruct X as [X1 X2]. destruct (B v X1) as (w & W1 & W2 & _). rewrite W2 in X2. rewrite (Y w W1) in X2. discriminate.
  - destruct Y as [X1 X2]. destruct (A w X1) as (v & W1 & W2 & _). rewrite <- W2 in X2. rewrite (X v W1) in X2. discriminate.
  - apply S.
Qed.
Lemma in_scope_order s s' t u : scope_order s s' -> term_order t u -> in_scope s t -> in_scope s' u.
Proof.
  intros S. destruct t as [|v], u as [|w]; cbn; try contradiction; auto. intros [N P] K g. rewrite <- (perm_set _ _ P), <- N. rewrite (K g). apply S.
Qed.
Lemma all_in_scope_order s s' ts us : scope_order s s' -> Forall2 term_order ts us -> Forall (in_scope s) ts -> Forall (in_scope s') us.
Proof. intros S F. induction F; auto. intros K. inversion K; subst. constructor; auto. eapply in_scope_order; eauto. Qed.
(** the blocks of a condition, seen through [bare] *)
Lemma scoped_order c f : forall g s s', form_order f g -> scope_order s s' -> (expression c (bare f) \/ condition c (bare f)) -> scoped s f -> scoped s' g.
Proof.
  assert (X : forall s s' ops m, scope_order s s' -> Forall (fun f => forall g s s', form_order f g -> scope_order s s' -> (expression c (bare f) \/ condition c (bare f)) -> scoped s f -> scoped s' g) ops ->
    Forall2 form_order ops m -> Forall (fun f => expression c (bare f) \/ condition c (bare f)) ops -> Forall (scoped s) ops -> Forall (scoped s') m).
  { intros s s' ops m S H F. induction F; auto. intros K L. inversion K; inversion L; inversion H; subst. constructor; eauto. }
  assert (M : forall (Q : form -> Prop) ops, (forall f, Q f -> expression c f \/ condition c f) -> Forall Q (map bare ops) -> Forall (fun f => expression c (bare f) \/ condition c (bare f)) ops).
  { intros Q ops HQ K. apply Forall_forall. intros x Hx. rewrite Forall_forall in K. apply HQ, K. now apply in_map. }
  assert (Y : forall f, atom_form c f -> expression c f \/ condition c f) by (intros; right; now apply C_atom).
  induction f using form_ind'; intros g0 s s' O S K; inversion O; subst; cbn [scoped bare] in *; rewrite ?fold_and_Forall.
  - now apply all_in_scope_order.
  - intros [A B]. split; eapply in_scope_order; eauto.
  - now apply all_in_scope_order.
  - auto.
  - apply (X s s' ops); auto. apply (M (expression c)); auto. destruct K as [K|K]; inversion K; subst; auto.
    all: match goal with A : atom_form _ _ |- _ => now inversion A | _ => repeat constructor; auto end.
  - apply (X s s' ops); auto. apply (M (condition c)); auto. destruct K as [K|K]; inversion K; subst; auto.
    all: match goal with A : atom_form _ _ |- _ => now inversion A | _ => repeat constructor; auto end.
  - apply IHf; auto. destruct K as [K|K]; inversion K; subst; try match goal with A : atom_form _ _ |- _ => inversion A end; auto.
  - assert (R : repeats_same vs /\ condition c (bare f)).
    { destruct K as [K|K]; inversion K; subst; try match goal with A : atom_form _ _ |- _ => inversion A end.
      all: match goal with A : block _ |- _ => destruct A as (_ & _ & _ & R) end; auto. }
    destruct R as [R Rc]. apply (IHf _ (enter vs s) (enter ws s')); auto.
    apply enter_order; auto; intros; [eapply set_order_In|eapply set_order_In_l]; eauto.
  - destruct K as [K|K]; inversion K; subst; match goal with A : atom_form _ _ |- _ => inversion A end.
  - destruct K as [K|K]; inversion K; subst; match goal with A : atom_form _ _ |- _ => inversion A end.
Qed.

(** ** typing *)
Lemma occurs_order f : forall g t, form_order f g -> occurs t g -> exists u, occurs u f /\ term_order u t.
Proof.
  assert (TS : forall ts us t, Forall2 term_order ts us -> In t us -> exists u, In u ts /\ term_order u t) by (intros; eapply F2_In_r; eauto).
  assert (X : forall ops m t, Forall (fun f => forall g t, form_order f g -> occurs t g -> exists u, occurs u f /\ term_order u t) ops ->
    Forall2 form_order ops m -> forall g, In g m -> occurs t g -> exists f u, In f ops /\ occurs u f /\ term_order u t).
  { intros ops m t H F g Hg Og. destruct (F2_In_r _ _ _ _ F Hg) as (f0 & Hf & Q). rewrite Forall_forall in H. destruct (H f0 Hf g t Q Og) as (u & U1 & U2). eauto. }
  induction f using form_ind'; intros g0 t O Q; inversion O; subst; inversion Q; subst.
  all: repeat match goal with
    | A : Forall2 term_order ?ts ?us, B : In ?x ?us |- _ =>
        destruct (TS _ _ _ A B) as (u & U1 & U2); exists u; split; [now constructor|exact U2]
    | A : Forall2 form_order ?ops ?m, B : In ?g ?m, C : occurs ?x ?g, H : Forall _ ?ops |- _ =>
        destruct (X _ _ _ H A _ B C) as (h & u & U0 & U1 & U2); exists u; split; [econstructor; eauto|exact U2]
    | A : set_order var_order _ ?ws, B : In ?w ?ws |- exists u, _ /\ term_order u (TVar ?w) =>
        destruct (set_order_In _ _ _ _ A B) as (v1 & V1 & V2); exists (TVar v1); split; [first [solve [eapply O_bound; eauto]|eapply O_fbound; eauto]|exact V2]
    | A : term_order ?y ?x |- exists u, _ /\ term_order u ?x => exists y; split; [constructor|exact A]
    | A : form_order ?f ?g, C : occurs ?x ?g, IH : forall g t, form_order ?f g -> _ |- _ =>
        destruct (IH _ _ A C) as (u & U1 & U2); exists u; split; [solve [now constructor]|exact U2]
    end.
Qed.

Lemma term_typed_order types rs rs' t u : Permutation rs rs' -> term_order t u -> term_typed types rs t -> term_typed types rs' u.
Proof.
  intros P O [A B]. pose proof (term_order_tags _ _ O) as T. split.
  - intros N. assert (TT : typing_on rs).
    { apply A. intros E. destruct (t_tags u) as [|g gs]; [congruence|]. assert (In g (t_tags t)) by (apply T; now left). rewrite E in H. contradiction. }
    unfold typing_on in *. rewrite <- !(fun r => conj (Permutation_in r P) (Permutation_in r (Permutation_sym P)) : In r rs <-> In r rs'). exact TT.
  - intros g Hg. apply B. now apply T.
Qed.
Lemma form_typed_order types rs rs' f g : Permutation rs rs' -> form_order f g -> form_typed types rs f -> form_typed types rs' g.
Proof. intros P O T t Ht. destruct (occurs_order _ _ _ O Ht) as (u & U1 & U2). eapply term_typed_order; eauto. Qed.

(** ** equality of the parts *)
Lemma atom_order_eqb a b : atom_order a b -> atom_eqb a b = true.
Proof. intros [N F]. unfold atom_eqb. rewrite N, String.eqb_refl. now apply terms_order_eqb. Qed.
Lemma opt_order_eqb o o' : opt_order form_order o o' -> option_eqb form_eqb o o' = true.
Proof. destruct o, o'; cbn; try tauto. apply form_order_eqb. Qed.
Lemma action_order_eqb a b : action_order a b -> action_eqb a b = true.
Proof. intros (N & P & C & E). unfold action_eqb. rewrite N, String.eqb_refl, terms_order_eqb, !opt_order_eqb; auto. Qed.
Lemma derived_order_eqb a b : derived_order a b -> derived_eqb a b = true.
Proof. intros (N & P & C). unfold derived_eqb, dp_pred. cbn [form_eqb]. rewrite N, String.eqb_refl, terms_order_eqb, form_order_eqb; auto. Qed.

Lemma terms_vars vs us : Forall2 term_order (map TVar vs) us -> exists ws, us = map TVar ws /\ Forall2 var_order vs ws.
Proof.
  revert us. induction vs as [|v vs IH]; intros us F; inversion F as [|? u ? us' Q F']; subst; [exists []; auto|].
  destruct u as [|w]; [contradiction|]. destruct (IH _ F') as (ws & -> & G). exists (w :: ws). cbn. auto.
Qed.
Lemma vars_legal vs ws : Forall2 var_order vs ws -> Forall legal_var vs -> Forall legal_var ws.
Proof. induction 1; auto. intros F0. inversion F0; subst. constructor; auto. eapply order_legal; eauto. Qed.
Lemma vars_repeats vs ws : Forall2 var_order vs ws -> repeats_same vs -> repeats_same ws.
Proof. intros F. apply order_repeats. intros. eapply F2_In_r; eauto. Qed.
Lemma vars_untyped vs ws : Forall2 var_order vs ws -> untyped_last vs -> untyped_last ws.
Proof.
  intros F (a & b & -> & Ca & Cb). apply Forall2_app_inv_l in F as (a' & b' & Fa & Fb & ->). exists a', b'. split; auto. split.
  - clear - Fa Ca. induction Fa as [|v w l m [N P] F IH]; constructor; inversion Ca; subst; auto. intros Q. apply H1. now apply (perm_nil _ _ P).
  - clear - Fb Cb. induction Fb as [|v w l m [N P] F IH]; constructor; inversion Cb; subst; auto. now apply (perm_nil _ _ P).
Qed.
Lemma vars_names vs ws : Forall2 var_order vs ws -> map v_name vs = map v_name ws.
Proof. induction 1 as [|v w l m [N P] F IH]; cbn; congruence. Qed.

Lemma order_built_domain d d' : domain_built d -> domain_order d d' -> domain_built d'.
Proof.
  intros B O. destruct (domain_built_types d B) as (ND & TL & NT). pose proof (remake d B) as R.
  pose proof R as R'. apply mk_domain_inv in R' as (_ & _ & _ & _ & _ & _).
  apply (mk_domain_Ok _ _ _ _ _ _ _ _ _ ND) in R as (E & L & (T1 & T2 & T3) & F1 & F2 & C1 & C2 & C3 & C4).
  destruct d as [dn dr dt dc dp dd df da], d' as [dn' dr' dt' dc' dp' dd' df' da'].
  destruct O as [O1 O2 O3 O4 O5 O6 O7 O8]. cbn [d_name d_reqs d_types d_constants d_predicates d_derived d_functions d_actions] in *. subst dn' dt'.
  injection E as E2 E3 E4 E5 E6 E8.
  assert (FN : forall n ts v, In ((n, ts), v) df' -> exists us, In ((n, us), v) df).
  { intros n ts v H. destruct (F2_In_r _ _ _ _ O7 H) as ([[n0 us] v0] & H0 & [N _] & V). cbn in *. subst. eauto. }
  exists dn, dr', (Some dt), dc', dp', dd', df', da'. apply mk_domain_Ok; auto. split; [|split; [|split; [|split; [|split]]]]; auto.
  - rewrite <- E3. f_equal; symmetry.
    + apply (dedup_id _ req_eqb_equiv). apply (NoDupE_perm _ req_eqb_equiv _ _ O2). rewrite E2. apply dedup_NoDupE, req_eqb_equiv.
    + apply (dedup_id _ const_eqb_equiv). apply (NoDupE_perm _ const_eqb_equiv _ _ O4). rewrite E4. apply dedup_NoDupE, const_eqb_equiv.
    + apply (dedup_id _ atom_eqb_equiv). eapply set_order_NoDupE; [apply atom_eqb_equiv| |exact O5|rewrite E5; apply dedup_NoDupE, atom_eqb_equiv]. intros. now apply atom_order_eqb.
    + apply (dedup_id _ derived_eqb_equiv). eapply set_order_NoDupE; [apply derived_eqb_equiv| |exact O6|rewrite E6; apply dedup_NoDupE, derived_eqb_equiv]. intros. now apply derived_order_eqb.
    + apply (dedup_id _ action_eqb_equiv). eapply set_order_NoDupE; [apply action_eqb_equiv| |exact O8|rewrite E8; apply dedup_NoDupE, action_eqb_equiv]. intros. now apply action_order_eqb.
  - split; auto. split; auto. intros H. apply (Permutation_in _ O2). auto.
  - intros (n & ts & v & H & Q). apply (Permutation_in _ O2). apply F1. destruct (FN _ _ _ H) as (us & U). eauto.
  - intros (n & ts & v & H & Q). destruct (FN _ _ _ H) as (us & U).
    destruct F2 as [X|X]; [eauto|left|right]; now apply (Permutation_in _ O2).
  - split; [|split; [|split]].
    + cbn. intros c Hc. apply (Permutation_in _ (Permutation_sym O4)) in Hc. specialize (C1 c Hc). cbn in C1.
      eapply term_typed_order; eauto. destruct c; cbn; auto.
    + cbn. intros p t Hp Ht. destruct (set_order_In _ _ _ _ O5 Hp) as (q & Q1 & Q2 & Q3). destruct (F2_In_r _ _ _ _ Q3 Ht) as (u & U1 & U2).
      eapply term_typed_order; [exact O2|exact U2|]. eapply C2; eauto.
    + cbn. intros a Ha. destruct (set_order_In _ _ _ _ O8 Ha) as (b & B1 & N & P & Pc & Pe). destruct (C3 b B1) as (X1 & X2 & Y1 & Y2 & Y3). cbn in Y1, Y2, Y3. unfold action_typed.
      destruct (a_pre b) as [pb|], (a_pre a) as [pa|]; cbn in Pc; try contradiction; try congruence.
      destruct (a_eff b) as [eb|], (a_eff a) as [ea|]; cbn in Pe; try contradiction; try congruence.
      split; [discriminate|]. split; [discriminate|]. split; [|split].
      * intros t Ht. destruct (F2_In_r _ _ _ _ P Ht) as (u & U1 & U2). eapply term_typed_order; eauto.
      * cbn in *. eapply form_typed_order; eauto.
      * cbn in *. eapply form_typed_order; eauto.
    + cbn. intros x t g Hx Ht Hg. destruct (set_order_In _ _ _ _ O6 Hx) as (y & Y1 & N & P & Pc). destruct (F2_In_r _ _ _ _ P Ht) as (u & U1 & U2).
      eapply C4; eauto. now apply (term_order_tags _ _ U2).
Qed.

Lemma order_eqb_domain d d' : dicts_ok d -> dicts_ok d' -> domain_order d d' -> domain_eqb d d' = true.
Proof.
  intros D D' O. unfold domain_eqb. destruct O as [O1 O2 O3 O4 O5 O6 O7 O8].
  rewrite !andb_true_iff. repeat split.
  - rewrite O1. apply String.eqb_refl.
  - apply (set_order_eqb _ eq); [apply req_eqb_equiv|intros x y _ ->; apply (eqv_refl _ req_eqb_equiv)|]. exists (d_reqs d). split; auto. clear. induction (d_reqs d); auto.
  - rewrite <- O3. apply (fun H => dict_eqb_refl String.eqb string_eqb_equiv (option_eqb String.eqb) H (d_types d)); [|apply D]. apply option_eqb_equiv, string_eqb_equiv.
  - apply (set_order_eqb _ eq); [apply const_eqb_equiv|intros x y _ ->; apply (eqv_refl _ const_eqb_equiv)|]. exists (d_constants d). split; auto. clear. induction (d_constants d); auto.
  - apply (set_order_eqb _ atom_order); auto; [apply atom_eqb_equiv|]. intros. now apply atom_order_eqb.
  - destruct D' as [_ D']. unfold functions_eqb, dict_eqb. rewrite (Forall2_length _ _ _ O7), Nat.eqb_refl. apply forallb_forall. intros [k v] H.
    assert (X : exists k', In (k', v) (d_functions d') /\ atom_order k k').
    { clear - O7 H. induction O7 as [|x y l m [Q V] F IH]; [contradiction|]. destruct H as [->|H]; [exists (fst y); cbn in *; subst; split; auto; left; destruct y; auto|].
      destruct (IH H) as (k' & ? & ?). exists k'. cbn. auto. }
    destruct X as (k' & X1 & X2). cbn. rewrite (dict_get_cong _ atom_eqb_equiv _ _ _ (atom_order_eqb _ _ X2)).
    rewrite (dict_get_In_iff _ atom_eqb_equiv _ _ _ D' X1). apply (eqv_refl _ (option_eqb_equiv _ string_eqb_equiv)).
  - apply (set_order_eqb _ derived_order); auto; [apply derived_eqb_equiv|]. intros. now apply derived_order_eqb.
  - apply (set_order_eqb _ action_order); auto; [apply action_eqb_equiv|]. intros. now apply action_order_eqb.
Qed.

Lemma order_same_place {A B} (R : A -> B -> Prop) l m x y y' : NoDup l -> Forall2 R l m -> In y m -> In y' m -> R x y -> R x y' ->
  (forall z, In z l -> R z y -> z = x) -> (forall z, In z l -> R z y' -> z = x) -> y = y'.
Proof.
  intros N F H H' Q Q' U U'. induction F as [|a b l m S F IH]; [contradiction|]. inversion N as [|? ? N1 N2]; subst.
  destruct H as [->|H], H' as [->|H']; auto.
  - exfalso. assert (a = x) by (apply U; cbn; auto). subst. destruct (F2_In_r _ _ _ _ F H') as (z & Z1 & Z2). assert (z = x) by (apply U'; cbn; auto). now subst.
  - exfalso. assert (a = x) by (apply U'; cbn; auto). subst. destruct (F2_In_r _ _ _ _ F H) as (z & Z1 & Z2). assert (z = x) by (apply U; cbn; auto). now subst.
  - apply IH; auto; intros z Z; [apply U|apply U']; cbn; auto.
Qed.
Lemma NoDupE_NoDup {A} (eqb : A -> A -> bool) l : is_equiv eqb -> NoDupE eqb l -> NoDup l.
Proof.
  intros E N. induction N as [|x l M N IH]; constructor; auto. intros H. rewrite memb_false in M. specialize (M x H). rewrite (eqv_refl _ E) in M. discriminate.
Qed.
Lemma head_arg_order ty v w t u : var_order v w -> term_order t u -> head_arg ty v t -> head_arg ty w u.
Proof.
  intros [_ P] O H. pose proof (term_order_tags _ _ O) as T.
  assert (TN : t_tags t = [] -> t_tags u = []).
  { intros E. destruct (t_tags u) as [|g gs]; auto. assert (X : In g (t_tags t)) by (apply T; now left). rewrite E in X. contradiction. }
  unfold head_arg in *. destruct (v_tags v) as [|g gs], (v_tags w) as [|h hs]; auto.
  - symmetry in P. apply Permutation_nil in P. discriminate.
  - destruct H as [H|H]; [auto|right]. intros k Hk. apply (Permutation_in _ (Permutation_sym P)) in Hk. destruct (H k Hk) as [X|(p & X & Y)]; [left; now apply T|].
    right. exists p. split; auto. now apply T.
Qed.

Lemma order_expressible d d' : domain_built d -> expressible_domain d -> never_mixed_domain d -> domain_order d d' -> expressible_domain d'.
Proof.
  intros B E [M1 M2] O.
  assert (NC : NoDupE const_eqb (d_constants d) /\ NoDup (d_predicates d)).
  { destruct B as (n & rs & ty & cs & ps & dps & fs & acts & B). apply mk_domain_inv in B as (_ & _ & _ & _ & _ & -> & -> & _).
    split; [apply dedup_NoDupE, const_eqb_equiv|]. eapply NoDupE_NoDup; [apply atom_eqb_equiv|apply dedup_NoDupE, atom_eqb_equiv]. }
  destruct NC as [NC NP]. destruct E as [E1 (E2 & E2' & E2'') E3 E4 E5 E6 E7]. rewrite Forall_forall in E4, E5, E6, E7.
  pose proof O as [O1 O2 O3 O4 O5 O6 O7 O8]. constructor.
  - intros H. apply E1. now apply (Permutation_in _ (Permutation_sym O2)).
  - split; [now rewrite <- O3|]. split; [now rewrite <- O3|]. rewrite <- O3. intros H. specialize (E2'' H).
    unfold typing_on in *. destruct E2'' as [X|X]; [left|right]; now apply (Permutation_in _ O2).
  - intros n g H. apply E3. now apply (Permutation_in _ (Permutation_sym O4)).
  - apply Forall_forall. intros p Hp. destruct (set_order_In _ _ _ _ O5 Hp) as (q & Q1 & N & F). destruct (E4 q Q1) as (vs & V & L & X1 & X2 & X3).
    rewrite V in F. apply terms_vars in F as (ws & W & F). exists ws. split; auto. rewrite <- N. split; auto.
    split; [eapply vars_legal; eauto|]. split; [eapply vars_repeats; eauto|eapply vars_untyped; eauto].
  - apply Forall_forall. intros f Hf. destruct (F2_In_r _ _ _ _ O7 Hf) as (q & Q1 & (N & F) & V). destruct (E5 q Q1) as (vs & X & L & Bl & TC & NU).
    rewrite X in F. apply terms_vars in F as (ws & W & F). exists ws. split; auto. rewrite <- N. split; auto. rewrite <- V. split; [eapply order_block_list; eauto|].
    split; auto. intros Q. specialize (TC Q). subst. now inversion F.
  - apply Forall_forall. intros x Hx. destruct (set_order_In _ _ _ _ O6 Hx) as (y & Y1 & N & F & C).
    destruct (E6 y Y1) as (vs & ts & T1 & T2 & T3 & T4 & T5 & T6 & T7 & T8 & T9 & T10 & T11).
    rewrite T1 in F. apply terms_vars in F as (ws & W & F).
    assert (X : exists us, In (dp_name x, us) (d_predicates d') /\ Forall2 term_order ts us /\ forall us', In (dp_name x, us') (d_predicates d') -> us' = us).
    { destruct (set_order_In_l _ _ _ _ O5 T6) as ((n & us) & U1 & U2 & U3). cbn in U2, U3. subst n. rewrite <- N. exists us. split; auto. split; auto.
      intros us' U'. destruct O5 as (k & Fk & Pk).
      assert (K : (dp_name y, us') = (dp_name y, us)).
      { apply (order_same_place atom_order (d_predicates d) k (dp_name y, ts)); auto.
        - now apply (Permutation_in _ (Permutation_sym Pk)).
        - now apply (Permutation_in _ (Permutation_sym Pk)).
        - destruct (F2_In_r _ _ _ _ Fk (Permutation_in _ (Permutation_sym Pk) U')) as ((n & z) & Z1 & Z2 & Z3). cbn in Z2, Z3. subst n. rewrite (T7 _ Z1) in Z3. split; auto.
        - split; auto.
        - intros (n & z) Z1 [Z2 Z3]. cbn in Z2. subst n. now rewrite (T7 _ Z1).
        - intros (n & z) Z1 [Z2 Z3]. cbn in Z2. subst n. now rewrite (T7 _ Z1). }
      now injection K. }
    destruct X as (us & U1 & U2 & U3). exists ws, us. split; auto. rewrite <- N in *. split; auto.
    split; [eapply vars_legal; eauto|]. split; [eapply vars_repeats; eauto|]. split; [eapply vars_untyped; eauto|]. split; auto. split; auto.
    split.
    { rewrite <- O3. clear - T8 F U2. revert ws us F U2. induction T8; intros ws us F U; inversion F; inversion U; subst; constructor; auto. eapply head_arg_order; eauto. }
    split; [eapply order_built; eauto|].
    assert (K : ctx_order (known d []) (known d' [])) by (apply known_order; auto).
    split; [eapply (order_condition _ _ K); [apply bare_order; eauto|now apply bare_never, M2|auto]|].
    eapply (scoped_order (known d [])); [exact C| |right; exact T10|exact T11].
    apply enter_order; auto; [intros; eapply F2_In_r; eauto| |intros n g; reflexivity].
    intros v Hv. clear - F Hv. induction F as [|a b l m Q F IH]; [contradiction|]. destruct Hv as [->|Hv]; [exists b; cbn; auto|]. destruct (IH Hv) as (w & ? & ?). exists w. cbn. auto.
  - apply Forall_forall. intros a Ha. destruct (set_order_In _ _ _ _ O8 Ha) as (b & B1 & N & P & Pc & Pe).
    destruct (E7 b B1) as (vs & pre & eff & Eb & L & Bl & ND & Bp & Cp & Be & Ce).
    assert (K1 : never_mixed pre) by (apply (M1 b pre B1); left; now rewrite Eb).
    assert (K2 : never_mixed eff) by (apply (M1 b eff B1); right; now rewrite Eb).
    rewrite Eb in P, Pc, Pe. cbn [a_params a_pre a_eff] in P, Pc, Pe. apply terms_vars in P as (ws & W & F).
    destruct a as [an ap apre aeff]. cbn [a_name a_params a_pre a_eff] in *. subst ap.
    destruct apre as [pa|]; [|contradiction]. destruct aeff as [ea|]; [|contradiction]. cbn in Pc, Pe.
    assert (K : ctx_order (known d vs) (known d' ws)) by (apply known_order; auto).
    exists ws, pa, ea. split; auto. split; [now rewrite <- N|]. split; [eapply order_block_list; eauto|]. split; [now rewrite <- (vars_names _ _ F)|].
    split; [eapply order_built; eauto|]. split; [eapply (order_condition _ _ K); eauto|]. split; [eapply order_built; eauto|eapply (order_effect _ _ K); eauto].
Qed.
Lemma order_functions d d' : domain_order d d' -> NoDupE atom_eqb (map fst (d_functions d)) -> NoDupE atom_eqb (map fst (d_functions d')).
Proof.
  intros O. apply (set_order_NoDupE _ atom_order); [apply atom_eqb_equiv|intros; now apply atom_order_eqb|]. exists (map fst (d_functions d')). split; auto.
  induction (do_functions _ _ O) as [|x y l m [Q _] F IH]; cbn; auto.
Qed.
