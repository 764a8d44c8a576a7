(** Facts for C77. *)
From Coq Require Import String List Bool Arith Lia Permutation Relations.
From Verif Require Import Py Py_facts Names Names_facts Reqs Order_facts Logic Logic_facts Validation Validation_facts Core Core_facts CoreEq_facts Lexer TypedList UpdateTags Parser.
From Verif Require Import Spec Spec_Core Spec_Parse Spec_Declared Spec_Listing.
From Verif Require Import DomainRead_facts.
Import ListNotations.
Open Scope string_scope.
Open Scope list_scope.

(** * The constructors *)
Lemma set_eqb_same {A} (eqb : A -> A -> bool) l m : is_equiv eqb -> (forall x, In x l <-> In x m) -> set_eqb eqb l m = true.
Proof.
  intros E H. unfold set_eqb. apply andb_true_iff. split; apply subset_In; intros x X; apply H in X.
  - unfold memb. apply existsb_exists. exists x. split; auto. apply (eqv_refl _ E).
  - unfold memb. apply existsb_exists. exists x. split; auto. apply (eqv_refl _ E).
Qed.
Lemma told_apart_dedup {A} (eqb : A -> A -> bool) l x : is_equiv eqb -> told_apart eqb l -> (In x (dedup eqb l) <-> In x l).
Proof.
  intros E T. split; [apply dedup_In|]. intros I.
  assert (M : memb eqb x (dedup eqb l) = true).
  { rewrite (memb_dedup _ E). unfold memb. apply existsb_exists. exists x. split; auto. apply (eqv_refl _ E). }
  unfold memb in M. apply existsb_exists in M as (y & Y & Q). rewrite (T x y); auto. now apply dedup_In in Y.
Qed.
Lemma same_items_dedup {A} (eqb : A -> A -> bool) l l' : is_equiv eqb -> told_apart eqb l -> same_items l l' ->
  forall x, In x (dedup eqb l') <-> In x (dedup eqb l).
Proof.
  intros E T S x. rewrite told_apart_dedup, told_apart_dedup; auto.
  intros a b Ia Ib. apply T; now apply S.
Qed.

Lemma mk_domain_listing n rs rs' ty ty' cs cs' ps ps' dps dps' fs fs' acts acts' d :
  NoDup (map fst ty) -> NoDupE atom_eqb (map fst fs) ->
  same_items rs rs' -> Permutation ty' ty -> Permutation fs' fs ->
  (forall x, In x (dedup const_eqb cs') <-> In x (dedup const_eqb cs)) ->
  (forall x, In x (dedup atom_eqb ps') <-> In x (dedup atom_eqb ps)) ->
  (forall x, In x (dedup derived_eqb dps') <-> In x (dedup derived_eqb dps)) ->
  (forall x, In x (dedup action_eqb acts') <-> In x (dedup action_eqb acts)) ->
  mk_domain n rs (Some ty) cs ps dps fs acts = Ok d ->
  exists d', mk_domain n rs' (Some ty') cs' ps' dps' fs' acts' = Ok d' /\ domain_eqb d' d = true.
Proof.
  intros N NF R T F C P D A H. apply mk_domain_Ok in H as (-> & L & ((L1 & L2) & K1 & (K2 & K3)) & K4 & K5 & K6); auto.
  assert (N' : NoDup (map fst ty')) by (eapply Permutation_NoDup; [|exact N]; symmetry; now apply Permutation_map).
  assert (RD : forall r, In r (dedup req_eqb rs') <-> In r (dedup req_eqb rs)).
  { intros r. rewrite <- !memb_req_In. rewrite !(memb_dedup _ req_eqb_equiv), !memb_req_In. apply R. }
  assert (TN : Permutation (norm_types ty') (norm_types ty)) by (apply Permutation_map; exact T).
  assert (TN' : Permutation (norm_types ty) (norm_types ty')) by now symmetry.
  eexists. split.
  - apply mk_domain_Ok; auto. split; [reflexivity|]. split; [exact L|]. split; [|split; [|split]].
    + split; [split|].
      * intros k v Hk. eapply L1. eapply Permutation_in; [exact T|exact Hk].
      * intros k p Hp. eapply L2. eapply supertype_perm; [exact T|exact Hp].
      * split; [|split].
        -- intros (k & p & H). apply R, K1. exists k, p. eapply supertype_perm; [exact T|exact H].
        -- intros p H. apply (K2 p). eapply supertype_perm; [exact T|exact H].
        -- intros x H. apply (K3 x).
           assert (Y : forall a b, clos_trans _ (supertype ty') a b -> clos_trans _ (supertype ty) a b).
           { clear - T. intros a b H. induction H; [apply t_step; eapply supertype_perm; eauto|eapply t_trans; eauto]. }
           now apply Y.
    + intros (k & ts & v & H & E). apply R, K4. exists k, ts, v. split; auto. eapply Permutation_in; eauto.
    + intros (k & ts & v & H & E). rewrite (R NUMERIC_FLUENTS), (R FLUENTS). apply K5. exists k, ts, v. split; auto. eapply Permutation_in; eauto.
    + destruct K6 as (C1 & C2 & C3 & C4). unfold domain_consistent in *. cbn [d_types d_reqs d_constants d_predicates d_actions d_derived] in *.
      assert (RI : forall r, In r (dedup req_eqb rs) -> In r (dedup req_eqb rs')) by (intros r; apply RD).
      split; [|split; [|split]].
      * intros c Hc. apply C in Hc. eapply term_typed_perm; [exact TN'|exact RI|]. auto.
      * intros p t Hp Ht. apply P in Hp. eapply term_typed_perm; [exact TN'|exact RI|]. eauto.
      * intros a Ha. apply A in Ha. destruct (C3 a Ha) as (G1 & G2 & G3 & G4 & G5). split; auto. split; auto. split; [|split].
        -- intros t Ht. eapply term_typed_perm; [exact TN'|exact RI|]. auto.
        -- destruct (a_pre a); [|exact Logic.I]. eapply form_typed_perm; [exact TN'|exact RI|]. exact G4.
        -- destruct (a_eff a); [|exact Logic.I]. eapply form_typed_perm; [exact TN'|exact RI|]. exact G5.
      * intros x t g Hx Ht Hg. apply D in Hx. eapply declared_perm; [exact TN'|]. eauto.
  - unfold domain_eqb. cbn [d_name d_types d_reqs d_constants d_predicates d_actions d_derived d_functions].
    rewrite String.eqb_refl. cbn [andb]. rewrite !andb_true_iff. repeat match goal with |- _ /\ _ => split end.
    + apply set_eqb_same; auto using req_eqb_equiv.
    + apply (dict_eqb_perm _ _ (norm_types ty') (norm_types ty')); auto using string_eqb_equiv.
      * apply option_eqb_equiv, string_eqb_equiv.
      * clear. induction (norm_types ty') as [|[k v] l IH]; constructor; auto. cbn. split; [apply String.eqb_refl|].
        apply (eqv_refl _ (option_eqb_equiv _ string_eqb_equiv)).
      * apply NoDupE_string. unfold norm_types. rewrite map_map. cbn. exact N.
    + apply set_eqb_same; auto using const_eqb_equiv.
    + apply set_eqb_same; auto using atom_eqb_equiv.
    + apply (dict_eqb_perm _ _ fs' fs'); auto using atom_eqb_equiv.
      * apply option_eqb_equiv, string_eqb_equiv.
      * clear. induction fs' as [|[k v] l IH]; constructor; auto. cbn. split; [apply (eqv_refl _ atom_eqb_equiv)|].
        apply (eqv_refl _ (option_eqb_equiv _ string_eqb_equiv)).
    + apply set_eqb_same; auto using derived_eqb_equiv.
    + apply set_eqb_same; auto using action_eqb_equiv.
Qed.
Lemma set_eqb_items {A} (eqb : A -> A -> bool) l l' : is_equiv eqb -> same_items l l' -> set_eqb eqb (dedup eqb l') (dedup eqb l) = true.
Proof.
  intros E S. pose proof (set_eqb_equiv _ E) as SE.
  apply (eqv_trans _ SE _ l'); [apply dedup_set_eqb; exact E|].
  apply (eqv_trans _ SE _ l); [apply set_eqb_same; auto|]. rewrite (eqv_sym _ SE). apply dedup_set_eqb; exact E.
Qed.
Lemma iterR_same {A} (f : A -> res unit) l l' : (forall x, In x l' -> In x l) -> iterR f l = Ok tt -> iterR f l' = Ok tt.
Proof. rewrite !iterR_Ok, !Forall_forall. auto. Qed.
Lemma literal_eqb f g : form_eqb f g = true -> is_literal f = is_literal g.
Proof. destruct f, g; cbn; intros H; try discriminate; try reflexivity; auto. destruct f, g; cbn in H |- *; try discriminate; reflexivity. Qed.

Lemma mk_problem_listing n d dn rs rs' objs objs' init init' goal m p :
  match d with
  | Some d => dicts_ok d /\ told_apart const_eqb objs /\ told_apart form_eqb init
  | None => True
  end ->
  both same_items rs rs' -> same_items objs objs' -> same_items init init' ->
  mk_problem n d dn rs objs init goal m = Ok p ->
  exists p', mk_problem n d dn rs' objs' init' goal m = Ok p' /\ problem_eqb p' p = true.
Proof.
  intros D R O I H. unfold mk_problem in *. apply bind_Ok in H as (n' & N & H). rewrite N. cbn [bind].
  apply bind_Ok in H as (dd & P & H). rewrite P. cbn [bind]. apply bind_Ok in H as (r & Q & H).
  apply bind_Ok in H as ([] & L & H). apply check_Ok in L. apply bind_Ok in H as ([] & K & H). injection H as <-.
  assert (L' : forallb is_literal (dedup form_eqb init') = true).
  { apply forallb_forall. intros x X. apply dedup_In, I in X.
    assert (Y : memb form_eqb x (dedup form_eqb init) = true).
    { rewrite (memb_dedup _ form_eqb_equiv). unfold memb. apply existsb_exists. exists x. split; auto. apply form_eqb_refl. }
    unfold memb in Y. apply existsb_exists in Y as (y & Y & E). rewrite (literal_eqb _ _ E). rewrite forallb_forall in L. auto. }
  assert (RR : exists r', parse_requirements d rs' = Ok r' /\
     match d with Some _ => r' = r | None => set_eqb req_eqb (match r' with Some x => x | None => [] end) (match r with Some x => x | None => [] end) = true end).
  { unfold parse_requirements in *. destruct rs as [rs|], rs' as [rs'|]; cbn [both] in R; try tauto.
    - destruct d as [d|].
      + apply bind_Ok in Q as ([] & Q & H). injection H as <-. apply check_Ok in Q.
        exists (Some (d_reqs d)). split; auto. rewrite (proj2 (check_Ok _ _)); [reflexivity|].
        apply (eqv_trans _ (set_eqb_equiv _ req_eqb_equiv) _ (dedup req_eqb rs)); auto. apply set_eqb_items; auto using req_eqb_equiv.
      + injection Q as <-. eexists. split; [reflexivity|]. apply set_eqb_items; auto using req_eqb_equiv.
    - destruct d; injection Q as <-; eexists; split; reflexivity. }
  destruct RR as (r' & -> & RE). cbn [bind]. rewrite L'. cbn [check bind].
  assert (DD : fst dd = d).
  { unfold parse_domain_and_name in P. destruct d as [d|], dn as [dn|].
    - apply bind_Ok in P as ([] & _ & P). apply bind_Ok in P as (x & _ & P). now injection P as <-.
    - now injection P as <-.
    - apply bind_Ok in P as (x & _ & P). now injection P as <-.
    - discriminate. }
  assert (KK : problem_check_consistency (mkProblem n' (fst dd) (snd dd) r' (dedup const_eqb objs') (dedup form_eqb init')
             match goal with Some g => g | None => mk_and [] end m) = Ok tt).
  { unfold problem_check_consistency in *. cbn [p_domain] in *. rewrite DD in *. destruct d as [d|]; [|reflexivity]. subst r'.
    destruct D as (_ & TO & TI). unfold problem_check in *. cbn [get_domain_name p_domain p_reqs p_objects p_init p_goal] in *.
    apply bind_Ok in K as ([] & H1 & H). rewrite H1. cbn [bind]. apply bind_Ok in H as ([] & H2 & H). rewrite H2. cbn [bind].
    apply bind_Ok in H as (ty & H3 & H). rewrite H3. cbn [bind]. apply bind_Ok in H as ([] & H4 & H). apply bind_Ok in H as ([] & H5 & H6).
    rewrite H6. assert (check_terms ty (d_reqs d) (map const_term (dedup const_eqb objs')) = Ok tt) as ->.
    { revert H4. unfold check_terms. apply iterR_same. intros x X. apply in_map_iff in X as (c & <- & X). apply in_map.
      now apply (same_items_dedup _ _ _ const_eqb_equiv TO O). }
    cbn [bind]. revert H5. intros H5. rewrite (iterR_same _ _ (dedup form_eqb init') (fun x => proj1 (same_items_dedup _ _ _ form_eqb_equiv TI I x)) H5). reflexivity. }
  rewrite KK. eexists. split; [reflexivity|].
  unfold problem_eqb. cbn [p_name p_domain get_domain_name get_requirements p_domain_name p_reqs p_objects p_init p_goal p_metric].
  rewrite !andb_true_iff. rewrite DD in *. repeat match goal with |- _ /\ _ => split end.
  - apply String.eqb_refl.
  - destruct d; cbn; auto. apply domain_eqb_refl, D.
  - unfold get_domain_name. cbn [p_domain]. apply String.eqb_refl.
  - unfold get_requirements. cbn [p_domain p_reqs]. destruct d; [apply (eqv_refl _ (set_eqb_equiv _ req_eqb_equiv))|exact RE].
  - apply set_eqb_items; auto using const_eqb_equiv.
  - apply set_eqb_items; auto using form_eqb_equiv.
  - apply form_eqb_refl.
  - apply (eqv_refl _ (option_eqb_equiv _ metric_eqb_equiv)).
Qed.
