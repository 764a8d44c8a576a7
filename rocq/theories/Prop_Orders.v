(** C29, C49, C52, C83 for every iteration order of the sets inside a domain or problem, i.e. for
    every hash seed. *)
From Coq Require Import String List Bool Arith ZArith Lia Permutation.
From Verif Require Import Py Names Reqs Logic Built Validation Core Lexer Show Parser Sem.
From Verif Require Import Spec Spec_Core Spec_Effect Spec_Print Spec_Text Spec_Domain Spec_Same Spec_Format Spec_Execute Spec_Orders.
From Verif Require Import Py_facts Names_facts Logic_facts CoreEq_facts Core_facts Equal_facts Execute_facts Format_facts FormatDomain_facts Main_facts
  Orders_facts OrdersDomain_facts OrdersText_facts Prop_Domain Prop_Format Prop_Twice Prop_Execute.
Import ListNotations.
Open Scope string_scope.
Open Scope list_scope.

(** A domain is printed in the same way whatever the order of its sets, if no quantifier has two
    variables or a variable of two types. *)
Theorem C29_any_order_partial : forall d d', domain_built d -> settled_domain d ->
  NoDupE atom_eqb (map fst (d_functions d)) -> domain_order d d' -> show_domain d' = show_domain d.
Proof. intros d d' B S F O. symmetry. now apply order_text. Qed.
Print Assumptions C29_any_order_partial.
Theorem C29_problem_any_order_partial : forall p p', Forall settled (problem_forms p) -> problem_order p p' ->
  show_problem p' = show_problem p.
Proof. intros p p' S O. symmetry. now apply order_problem_text. Qed.
Print Assumptions C29_problem_any_order_partial.

(** What is parsed and printed reads back to an equal domain whatever the order of the sets, under
    the conditions of C49 and if no quantifier has both typed and untyped variables. *)
Theorem C49_any_order_partial : forall s d d', parse_domain_fresh s = Ok d -> writable_domain d ->
  never_mixed_domain d -> domain_order d d' ->
  exists s' q, show_domain d' = Ok s' /\ parse_domain_fresh s' = Ok q /\ domain_eqb q d = true
    /\ (forall c, In c (d_constants q) <-> In c (d_constants d)).
Proof.
  intros s d d' H W M O. destruct (parsed_domain_expressible s d H W) as (B & E & N).
  pose proof (order_built_domain _ _ B O) as B'. pose proof (order_expressible _ _ B E M O) as E'. pose proof (order_functions _ _ O N) as N'.
  destruct (C33_domains_partial d' B' E' N') as (s' & q & S & R & Q & C). exists s', q. split; auto. split; auto. split.
  - assert (DO : forall x, domain_built x -> NoDupE atom_eqb (map fst (d_functions x)) -> dicts_ok x).
    { intros x Bx Nx. split; auto. apply NoDupE_string. now destruct (domain_built_types x Bx). }
    assert (Dq : dicts_ok q).
    { apply DO; [eapply parsed_built; eauto|]. destruct (parsed_domain_parts _ _ R) as (n0 & l0 & _ & [_ _ _ _ _ [FQ _] _ _]). exact FQ. }
    eapply domain_eqb_trans; [exact Dq|apply DO; [exact B'|exact N']|now apply DO|exact Q|].
    apply domain_eqb_sym; [now apply DO|now apply DO|]. apply order_eqb_domain; auto.
  - intros c. rewrite C. split; apply Permutation_in; [symmetry|]; apply O.
Qed.
Print Assumptions C49_any_order_partial.
(** The text of a parsed problem never depends on the order. *)
Theorem C49_problem_any_order : forall s p p', parse_problem s = Ok p -> problem_order p p' ->
  show_problem p' = show_problem p.
Proof. intros s p p' H O. symmetry. apply order_problem_text; auto. eapply parsed_problem_settled; eauto. Qed.
Print Assumptions C49_problem_any_order.

(** Without the second condition the property depends on the hash seed: (?b - t ?a) can be printed
    as (?a ?b - t), which gives [a] the type t. *)
Definition quantified_text (vs : string) : string :=
  "(define (domain d) (:requirements :typing :existential-preconditions) (:types t u) (:predicates (p) (r ?x ?y)) (:action go :parameters () :precondition (exists (" ++ vs ++ ") (r ?a ?b)) :effect (p)))".
(** the same domain with the predicates, the requirements and the variables of the quantifier in
    the other order *)
Definition swap_form (f : form) : form :=
  match f with FQuant q vs g => FQuant q (rev vs) g | _ => f end.
Definition swap_domain (d : domain) : domain :=
  mkDomain (d_name d) (rev (d_reqs d)) (d_types d) (d_constants d) (rev (d_predicates d)) (d_derived d) (d_functions d)
    (map (fun a => mkAction (a_name a) (a_params a) (option_map swap_form (a_pre a)) (a_eff a)) (d_actions d)).
Lemma term_refl t : term_order t t. Proof. destruct t; cbn; auto. split; auto. Qed.
Lemma F2_refl {A} (R : A -> A -> Prop) l : (forall x, R x x) -> Forall2 R l l.
Proof. intros H. induction l; constructor; auto. Qed.
Lemma set_refl {A} (R : A -> A -> Prop) l m : (forall x, R x x) -> Permutation l m -> set_order R l m.
Proof. intros H P. exists l. split; auto. now apply F2_refl. Qed.
Lemma atom_refl a : atom_order a a. Proof. split; auto. apply F2_refl, term_refl. Qed.
Lemma form_refl f : form_order f f.
Proof.
  induction f using form_ind'; constructor; auto using F2_refl, term_refl; try (apply set_refl; auto; split; auto);
    induction H; constructor; auto.
Qed.
Lemma swap_order f : form_order f (swap_form f).
Proof.
  destruct f; try apply form_refl. cbn. constructor; [|apply form_refl]. apply set_refl; [split; auto|apply Permutation_rev].
Qed.
Lemma derived_refl x : derived_order x x.
Proof. split; auto. split; [apply F2_refl, term_refl|apply form_refl]. Qed.
Lemma opt_refl o : opt_order form_order o o. Proof. destruct o; cbn; auto. apply form_refl. Qed.
Lemma swap_domain_order d : domain_order d (swap_domain d).
Proof.
  constructor; cbn; auto using Permutation_rev.
  - apply set_refl; [exact atom_refl|apply Permutation_rev].
  - apply set_refl; [exact derived_refl|reflexivity].
  - apply F2_refl. intros x. split; auto. apply atom_refl.
  - exists (map (fun a => mkAction (a_name a) (a_params a) (option_map swap_form (a_pre a)) (a_eff a)) (d_actions d)).
    split; [|reflexivity]. induction (d_actions d) as [|a l IH]; constructor; auto. split; auto. split; [apply F2_refl, term_refl|].
    split; [|apply opt_refl]. cbn. destruct (a_pre a); cbn; auto. apply swap_order.
Qed.
Ltac written := constructor; cbn [d_types d_reqs d_functions d_derived d_actions];
  [ intros ? ? X; cbn in X; destruct X as [X|[X|[]]]; discriminate
  | intros _; unfold typing_on; cbn; tauto
  | intros ? ? [] | intros ? []
  | intros a [<-|[]]; split; [intros ? []|]; split;
    [ intros p X; injection X as <-; split; [cbn; repeat constructor|discriminate]
    | intros e X; injection X as <-; split; [cbn; repeat constructor|discriminate] ] ].
Theorem C49_order_refuted : exists s d d' s' q, parse_domain_fresh s = Ok d /\ writable_domain d
  /\ domain_order d d' /\ show_domain d' = Ok s' /\ parse_domain_fresh s' = Ok q /\ domain_eqb q d = false.
Proof.
  pose (s := quantified_text "?b - t ?a").
  destruct (parse_domain_fresh s) as [d|] eqn:E; [|vm_compute in E; discriminate].
  destruct (show_domain (swap_domain d)) as [s'|] eqn:X; [|vm_compute in E; injection E as <-; vm_compute in X; discriminate].
  destruct (parse_domain_fresh s') as [q|] eqn:Q; [|vm_compute in E; injection E as <-; vm_compute in X; injection X as <-; vm_compute in Q; discriminate].
  exists s, d, (swap_domain d), s', q. repeat apply conj; auto using swap_domain_order.
  - clear - E. vm_compute in E. injection E as <-. written.
  - vm_compute in E; injection E as <-; vm_compute in X; injection X as <-; vm_compute in Q; injection Q as <-. reflexivity.
Qed.
Print Assumptions C49_order_refuted.
(** two variables of two types, in the two orders: two texts, with the same meaning *)
Example C49_any_order_ex : exists s d s1 s2, parse_domain_fresh s = Ok d /\ writable_domain d /\ never_mixed_domain d
  /\ domain_order d (swap_domain d) /\ show_domain d = Ok s1 /\ show_domain (swap_domain d) = Ok s2 /\ s1 <> s2.
Proof.
  pose (s := quantified_text "?b - t ?a - u").
  destruct (parse_domain_fresh s) as [d|] eqn:E; [|vm_compute in E; discriminate].
  destruct (show_domain d) as [s1|] eqn:X; [|vm_compute in E; injection E as <-; vm_compute in X; discriminate].
  destruct (show_domain (swap_domain d)) as [s2|] eqn:Y; [|vm_compute in E; injection E as <-; vm_compute in Y; discriminate].
  exists s, d, s1, s2. repeat apply conj; auto using swap_domain_order.
  - clear - E. vm_compute in E. injection E as <-. written.
  - vm_compute in E. injection E as <-. intros a f [<-|[]] [F|F]; injection F as <-; cbn; auto.
    split; auto. right. intros v [<-|[<-|[]]]; discriminate.
  - vm_compute in E. injection E as <-. intros x [].
  - vm_compute in E; injection E as <-; vm_compute in X; injection X as <-; vm_compute in Y; injection Y as <-. discriminate.
Qed.

(** The text printed for a parsed domain is the one that the second run prints, with whatever hash
    seeds the two runs have, if moreover no quantifier has two variables. *)
Theorem C52_any_order_partial : forall s d d', parse_domain_fresh s = Ok d -> writable_domain d ->
  Forall settled (domain_forms d) -> domain_order d d' ->
  exists s' q, show_domain d' = Ok s' /\ parse_domain_fresh s' = Ok q
    /\ forall q', domain_order q q' -> show_domain q' = Ok s'.
Proof.
  intros s d d' H W S O. destruct (parsed_domain_expressible s d H W) as (B & E & N).
  destruct (text_settled d B E N S) as (s' & q & X & R & Y & Bq & Sq & Nq). exists s', q. split; [|split; auto].
  - rewrite <- X. symmetry. apply order_text; auto. now apply settled_expressible.
  - intros q' O'. rewrite <- Y. symmetry. now apply order_text.
Qed.
Print Assumptions C52_any_order_partial.
Theorem C52_problem_any_order : forall s p p' q q', parse_problem s = Ok p -> problem_order p p' ->
  parse_problem (show_problem p') = Ok q -> problem_order q q' -> show_problem q' = show_problem p'.
Proof.
  intros s p p' q q' H O Q O'. rewrite (C49_problem_any_order _ _ _ Q O').
  rewrite (C49_problem_any_order _ _ _ H O) in Q |- *. eapply C52_problems; eauto.
Qed.
Print Assumptions C52_problem_any_order.
Example C52_any_order_ex : exists d, parse_domain_fresh block_text = Ok d /\ writable_domain d
  /\ Forall settled (domain_forms d) /\ domain_order d (swap_domain d) /\ swap_domain d <> d.
Proof.
  destruct C49_domain_ex as (d & _ & _ & E & W & _). exists d. repeat apply conj; auto using swap_domain_order.
  - vm_compute in E. injection E as <-. repeat constructor.
  - vm_compute in E. injection E as <-. vm_compute. discriminate.
Qed.
(** the same problem with the objects and the facts in the other order *)
Definition swap_problem (p : problem) : problem :=
  mkProblem (p_name p) None (p_domain_name p) (p_reqs p) (rev (p_objects p)) (rev (p_init p)) (p_goal p) (p_metric p).
Example C49_problem_any_order_ex : exists p, parse_problem p01_text = Ok p /\ problem_order p (swap_problem p)
  /\ swap_problem p <> p.
Proof.
  destruct C49_problem_ex as (p & _ & E & _). exists p. split; auto. split.
  - destruct (parsed_problem_settled _ _ E) as (D & _). constructor; cbn; auto using Permutation_rev, form_refl.
    + destruct (p_reqs p); cbn; auto.
    + apply set_refl; [exact form_refl|apply Permutation_rev].
    + destruct (p_metric p); cbn; auto. split; auto. apply form_refl.
  - vm_compute in E. injection E as <-. vm_compute. discriminate.
Qed.

(** Files formatted with any hash seed have the same solutions as before. *)
Theorem C83_any_order_partial : forall sd sp d p dd pp, parse_domain_fresh sd = Ok d -> parse_problem sp = Ok p ->
  writable_domain d -> writable_problem p -> never_mixed_domain d -> domain_order d dd -> problem_order p pp ->
  exists sd' d' p', show_domain dd = Ok sd' /\ parse_domain_fresh sd' = Ok d'
    /\ parse_problem (show_problem pp) = Ok p'
    /\ forall next I pl, (typed d p I /\ solves next d p I pl) <-> (typed d' p' I /\ solves next d' p' I pl).
Proof.
  intros sd sp d p dd pp Ed Ep Wd Wp M O Op. rewrite (C49_problem_any_order _ _ _ Ep Op).
  destruct (C49_any_order_partial sd d dd Ed Wd M O) as (sd' & d' & S & R & E & C).
  destruct (C49_problems_partial sp p Ep Wp) as (p' & R' & E' & C').
  exists sd', d', p'. split; auto. split; auto. split; auto. intros next I pl.
  assert (T : forall k v, In (k, v) (d_types d') <-> In (k, v) (d_types d)).
  { destruct (parsed_domain_expressible sd d Ed Wd) as (B & _).
    apply parsed_built in R.
    apply equal_types; [apply (domain_built_types _ R)|apply (domain_built_types _ B)|].
    unfold domain_eqb in E. do 5 apply andb_true_iff in E as [E _]. now apply andb_true_iff in E as [_ E]. }
  assert (Y : forall o g, type_of (d_types d) o g <-> type_of (d_types d') o g).
  { intros o g. split; induction 1; try constructor; (eapply ty_super; [apply T; eassumption|auto]). }
  assert (Z : typed d p I <-> typed d' p' I).
  { unfold typed. setoid_rewrite C. setoid_rewrite C'. setoid_rewrite Y. reflexivity. }
  rewrite Z. assert (PL : plan_eqb pl pl = true) by apply (eqv_refl _ plan_eqb_equiv).
  rewrite (C83_equal next d' d p' p pl pl I E E' PL). reflexivity.
Qed.
Print Assumptions C83_any_order_partial.
Example C83_any_order_ex : exists d p, parse_domain_fresh block_text = Ok d /\ parse_problem p01_text = Ok p
  /\ writable_domain d /\ writable_problem p /\ never_mixed_domain d
  /\ domain_order d (swap_domain d) /\ problem_order p (swap_problem p).
Proof.
  destruct C52_any_order_ex as (d & E & W & S & O & _). destruct C49_problem_any_order_ex as (p & F & Op & _).
  destruct C49_problem_ex as (p2 & _ & F' & V & _). rewrite F in F'. injection F' as <-. exists d, p.
  do 4 (split; [assumption|]). split; [now apply settled_unmixed|]. now split.
Qed.
