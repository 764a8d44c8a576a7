(** Types, the type checker, functions and the domain constructor. *)
From Coq Require Import String List Bool Arith Lia Relations.
From Verif Require Import Spec_Core Py Names Reqs Logic Validation Core Spec Built
  Py_facts Logic_facts Names_facts Order_facts CoreEq_facts Cycle_facts.
Import ListNotations.
Open Scope string_scope.
Open Scope list_scope.

(** ** Types *)
Definition norm_parent (v : option string) : option string :=
  match v with Some "" => None | _ => v end.

Lemma to_type_value_Ok v v' : to_type_value v = Ok v' <->
  v' = norm_parent v /\ (forall p, v = Some p -> p <> "" -> legal_type p).
Proof.
  destruct v as [s|]; simpl.
  - destruct s as [|c s].
    + split.
      * intros [= <-]. split; auto. intros p [= <-] N. congruence.
      * now intros [-> _].
    + split.
      * intros H. apply bind_Ok in H as (n & Hn & H). inversion H; subst.
        apply parse_type_Ok' in Hn as [-> L]. split; auto. intros p [= <-] _. exact L.
      * intros [-> L]. assert (L' : legal_type (String c s)) by (apply L; [reflexivity|discriminate]).
        apply parse_type_Ok in L'. now rewrite L'.
  - split.
    + intros [= <-]. split; auto. discriminate.
    + now intros [-> _].
Qed.

Definition norm_types (d : types_dict) : types_dict := map (fun kv => (fst kv, norm_parent (snd kv))) d.

Lemma to_types_Ok d t : NoDup (map fst d) ->
  to_types d = Ok t <->
  t = norm_types d /\ (forall k v, In (k, v) d -> legal_type k) /\ (forall k p, supertype d k p -> legal_type p).
Proof.
  intros ND. unfold to_types.
  assert (M : forall l, mapR (fun kv : string * option string => let* k := parse_type (fst kv) in
                            let* v := to_type_value (snd kv) in Ok (k, v)) d = Ok l <->
    l = norm_types d /\ (forall k v, In (k, v) d -> legal_type k) /\ (forall k p, supertype d k p -> legal_type p)).
  { clear ND. unfold supertype. induction d as [|(k, v) d IH]; intros l.
    - simpl. split; [intros [= <-]|intros [-> _]; auto].
      split; [reflexivity|]. split; [intros k v H; destruct H|intros k p (H & _); destruct H].
    - cbn [mapR]. split.
      + intros H. apply bind_Ok in H as (kv & H1 & H). apply bind_Ok in H as (l' & H2 & H).
        inversion H; subst. apply bind_Ok in H1 as (k' & Hk & H1). apply bind_Ok in H1 as (v' & Hv & H1).
        inversion H1; subst. apply parse_type_Ok' in Hk as [-> Lk]. apply to_type_value_Ok in Hv as [-> Lv].
        apply IH in H2 as (-> & L1 & L2). split; [reflexivity|]. split.
        * intros k0 v0 [[= <- <-]|H0]; eauto.
        * intros k0 p [[[= <- E]|H0] N]; eauto.
      + intros (-> & L1 & L2). simpl fst. simpl snd.
        assert (parse_type k = Ok k) as -> by (apply parse_type_Ok; eapply L1; left; eauto).
        assert (to_type_value v = Ok (norm_parent v)) as ->.
        { apply to_type_value_Ok. split; auto. intros p -> N. eapply L2; split; eauto. left; eauto. }
        simpl. pose proof (proj2 (IH (norm_types d))) as K. rewrite K; auto.
        split; [reflexivity|]. split; [intros; eapply L1|intros ? ? [? ?]; eapply L2; split]; try right; eauto. }
  assert (DI : dict_of_list String.eqb (norm_types d) = norm_types d).
  { apply dict_of_list_id; [apply string_eqb_equiv|]. apply NoDupE_string.
    unfold norm_types. rewrite map_map. simpl. auto. }
  split.
  - intros H. apply bind_Ok in H as (l & H1 & H). inversion H; subst. apply M in H1 as (-> & L). now rewrite DI.
  - intros (-> & L). pose proof (proj2 (M (norm_types d)) (conj eq_refl L)) as ->. simpl. now rewrite DI.
Qed.

Lemma norm_types_keys d : map fst (norm_types d) = map fst d.
Proof. unfold norm_types. now rewrite map_map. Qed.
Lemma norm_types_In d k p : In (k, Some p) (norm_types d) <-> supertype d k p.
Proof.
  unfold norm_types, supertype. rewrite in_map_iff. split.
  - intros ((k', v) & E & H). simpl in E. inversion E; subst. destruct v as [[|c s]|]; try discriminate.
    simpl in H2. inversion H2; subst. split; auto. discriminate.
  - intros (H & N). exists (k, Some p). split; auto. simpl. destruct p; [congruence|reflexivity].
Qed.
Lemma norm_types_idem d : norm_types (norm_types d) = norm_types d.
Proof. unfold norm_types. rewrite map_map. apply map_ext. intros (k, [[|]|]); reflexivity. Qed.

Lemma types_graph_edge d a b : edge (types_graph d) a b <-> In (a, Some b) d.
Proof.
  unfold edge, types_graph. split.
  - intros (ns & H & Hb). apply in_map_iff in H as ((k & [p|]) & E & H); simpl in E; inversion E; subst.
    + destruct Hb as [<-|[]]. auto.
    + destruct Hb.
  - intros H. exists [b]. split; [|simpl; auto]. apply in_map_iff. exists (a, Some b). auto.
Qed.
Lemma types_graph_keys d : map fst (types_graph d) = map fst d.
Proof. unfold types_graph. rewrite map_map. reflexivity. Qed.

Definition parents_of (d : types_dict) : list string :=
  flat_map (fun kv => match snd kv with Some p => [p] | None => [] end) d.
Lemma parents_of_In d p : In p (parents_of d) <-> exists k, In (k, Some p) d.
Proof.
  unfold parents_of. rewrite in_flat_map. split.
  - intros ((k, [q|]) & H & Hp); simpl in Hp; [|destruct Hp]. destruct Hp as [<-|[]]. eauto.
  - intros (k & H). exists (k, Some p). simpl; auto.
Qed.

Lemma has_negb r l : has r l = true <-> In r l.
Proof. apply has_In. Qed.

Lemma check_types_dictionary_Ok d rs : NoDup (map fst d) ->
  check_types_dictionary d rs = Ok tt <->
  ((exists k p, In (k, Some p) d) -> In TYPING rs) /\
  (forall p, ~ In ("object", Some p) d) /\
  (forall n, ~ clos_trans _ (fun a b => In (a, Some b) d) n n).
Proof.
  intros ND. unfold check_types_dictionary. destruct d as [|kv d0] eqn:Ed.
  - split; auto. intros _. split; [intros (k & p & [])|]. split; [intros p []|].
    intros n H. apply clos_trans_t1n in H. destruct H as [? []|? ? []].
  - rewrite <- Ed in *. clear Ed kv d0. fold (parents_of d).
    assert (G : find_cycle (types_graph d) = None <-> (forall n, ~ clos_trans _ (fun a b => In (a, Some b) d) n n)).
    { rewrite find_cycle_None, gacyclic_acyclic by now rewrite types_graph_keys.
      unfold acyclic, on_cycle. split; intros H n; specialize (H n);
        rewrite (clos_trans_ext _ _ (types_graph_edge d)) in *; auto. }
    assert (P : length (parents_of d) = 0 <-> ~ exists k p, In (k, Some p) d).
    { destruct (parents_of d) as [|p l] eqn:E.
      - split; auto. intros _ (k & p & H). assert (In p (parents_of d)) by (apply parents_of_In; eauto).
        rewrite E in H0. destruct H0.
      - split; [discriminate|]. intros N. exfalso. apply N.
        assert (In p (parents_of d)) as H by (rewrite E; simpl; auto).
        apply parents_of_In in H as (k & H). eauto. }
    assert (O : (match dict_get String.eqb "object" d with Some (Some _) => False | _ => True end)
                <-> forall p, ~ In ("object", Some p) d).
    { assert (DG : forall v, dict_get String.eqb "object" d = Some v <-> In ("object", v) d).
      { intros v. split.
        - intros H. apply dict_get_In in H as (k & H & E). apply String.eqb_eq in E. now subst.
        - intros H. apply dict_get_In_iff; auto using string_eqb_equiv.
          now apply NoDupE_string. }
      destruct (dict_get String.eqb "object" d) as [[p|]|] eqn:E.
      - split; [tauto|]. intros N. apply (N p). now apply DG.
      - split; auto. intros _ p H. apply DG in H. congruence.
      - split; auto. intros _ p H. apply DG in H. congruence. }
    destruct (Nat.eqb (length (parents_of d)) 0) eqn:L; simpl.
    + apply Nat.eqb_eq in L. apply P in L.
      destruct (dict_get String.eqb "object" d) as [[p|]|].
      * split; [discriminate|]. intros (_ & N & _). exfalso. now apply O.
      * destruct (find_cycle (types_graph d)).
        -- split; [discriminate|]. intros (_ & _ & N). apply G in N. discriminate.
        -- split; auto. intros _. split; [tauto|]. split; [now apply O|now apply G].
      * destruct (find_cycle (types_graph d)).
        -- split; [discriminate|]. intros (_ & _ & N). apply G in N. discriminate.
        -- split; auto. intros _. split; [tauto|]. split; [now apply O|now apply G].
    + assert (EX : exists k p, In (k, Some p) d).
      { destruct (parents_of d) as [|p l] eqn:E; [discriminate|].
        assert (In p (parents_of d)) as H by (rewrite E; simpl; auto).
        apply parents_of_In in H as (k & H). eauto. }
      destruct (has TYPING rs) eqn:HT; simpl.
      2:{ split; [discriminate|]. intros (N & _). apply N, has_In in EX. congruence. }
      apply has_In in HT.
      destruct (dict_get String.eqb "object" d) as [[p|]|].
      * split; [discriminate|]. intros (_ & N & _). exfalso. now apply O.
      * destruct (find_cycle (types_graph d)).
        -- split; [discriminate|]. intros (_ & _ & N). apply G in N. discriminate.
        -- split; auto. intros _. split; [tauto|]. split; [now apply O|now apply G].
      * destruct (find_cycle (types_graph d)).
        -- split; [discriminate|]. intros (_ & _ & N). apply G in N. discriminate.
        -- split; auto. intros _. split; [tauto|]. split; [now apply O|now apply G].
Qed.

Lemma check_types_dictionary_err d rs e :
  check_types_dictionary d rs = Err e -> e = PDDLValidationError.
Proof.
  unfold check_types_dictionary. destruct d as [|kv d0]; [discriminate|].
  destruct (_ && _); [now intros [= <-]|].
  destruct (dict_get _ _ _) as [[?|]|]; try now intros [= <-].
  - destruct (find_cycle _); now intros [= <-].
  - destruct (find_cycle _); now intros [= <-].
Qed.

(** the conditions of C11 on the dictionary *)
Lemma mk_types_Ok d rs t : NoDup (map fst d) ->
  mk_types (Some d) rs false = Ok t <->
  t = norm_types d /\ types_legal d /\ ((exists k p, supertype d k p) -> In TYPING rs) /\ hierarchy_ok d.
Proof.
  intros ND. unfold mk_types, types_legal, hierarchy_ok.
  assert (CT : check_types_dictionary (norm_types d) rs = Ok tt <->
     ((exists k p, supertype d k p) -> In TYPING rs) /\ (forall p, ~ supertype d "object" p) /\
     (forall n, ~ clos_trans _ (supertype d) n n)).
  { rewrite check_types_dictionary_Ok by now rewrite norm_types_keys.
    split; intros (A & B & C).
    - split; [intros (k & p & H); apply A; exists k, p; now apply norm_types_In|].
      split; [intros p H; apply (B p); now apply norm_types_In|].
      intros n H. apply (C n). rewrite (clos_trans_ext _ _ (fun a b => norm_types_In d a b)). auto.
    - split; [intros (k & p & H); apply A; exists k, p; now apply norm_types_In|].
      split; [intros p H; apply (B p); now apply norm_types_In|].
      intros n H. apply (C n). rewrite <- (clos_trans_ext _ _ (fun a b => norm_types_In d a b)). auto. }
  split.
  - intros H. apply bind_Ok in H as (t0 & H1 & H). apply (to_types_Ok d t0 ND) in H1 as (-> & L).
    apply bind_Ok in H as ([] & H2 & H). inversion H; subst. apply CT in H2. tauto.
  - intros (-> & L & T & H). rewrite (proj2 (to_types_Ok d (norm_types d) ND)) by auto.
    simpl. rewrite (proj2 CT) by tauto. reflexivity.
Qed.

(** Types(d, skip_checks=True) on a dictionary that already went through Types *)
Lemma mk_types_skip d rs : NoDup (map fst d) -> types_legal d -> norm_types d = d ->
  mk_types (Some d) rs true = Ok d.
Proof.
  intros ND L E. unfold mk_types. rewrite (proj2 (to_types_Ok d d ND)); auto.
Qed.
Lemma mk_types_norm ty rs t : mk_types ty rs false = Ok t ->
  NoDup (map fst t) /\ types_legal t /\ norm_types t = t.
Proof.
  intros H. pose proof (mk_types_keys _ _ _ _ H) as K. apply NoDupE_string in K. split; auto.
  unfold mk_types, to_types in H. apply bind_Ok in H as (x & H1 & H).
  apply bind_Ok in H1 as (l & H1 & H2). inversion H2; subst x. clear H2.
  apply bind_Ok in H as ([] & _ & H). inversion H; subst t. clear H.
  apply mapR_Ok in H1.
  assert (P : forall k v, In (k, v) l -> legal_type k /\ norm_parent v = v /\ (forall p, v = Some p -> legal_type p)).
  { intros k v Hk. clear K. induction H1 as [|(k0, v0) y l0 l' Hy _ IH]; [destruct Hk|].
    destruct Hk as [->|Hk]; auto. simpl in Hy.
    apply bind_Ok in Hy as (k' & H3 & H4). apply bind_Ok in H4 as (v' & H4 & H5). inversion H5; subst.
    apply parse_type_Ok' in H3 as [-> H3]. apply to_type_value_Ok in H4 as [-> H4].
    split; auto. split.
    - destruct v0 as [[|]|]; reflexivity.
    - intros p E. destruct v0 as [[|c s]|]; inversion E; subst. apply H4; auto. discriminate. }
  assert (Q : forall k v, In (k, v) (dict_of_list String.eqb l) -> In (k, v) l).
  { intros k v Hk.
    assert (dict_get String.eqb k (dict_of_list String.eqb l) = Some v) as G.
    { apply dict_get_In_iff; auto using string_eqb_equiv.
      apply dict_of_list_NoDupE, string_eqb_equiv. }
    rewrite dict_get_of_list in G by apply string_eqb_equiv.
    apply dict_get_In in G as (k' & G & E). apply String.eqb_eq in E. subst. now apply in_rev. }
  split.
  - split.
    + intros k v Hk. apply Q, P in Hk. tauto.
    + intros k p [Hk _]. apply Q, P in Hk as (_ & _ & Hp). auto.
  - unfold norm_types. rewrite <- (map_id (dict_of_list String.eqb l)) at 2. apply map_ext_in.
    intros (k, v) Hk. apply Q, P in Hk as (_ & E & _). simpl. now rewrite E.
Qed.

(** ** the type checker *)
Lemma all_types_In d t : norm_types d = d -> In t (all_types d) <-> declared d t.
Proof.
  intros N. unfold all_types, declared. rewrite dedup_string_In, in_app_iff. fold (parents_of d).
  rewrite parents_of_In, in_map_iff. split.
  - intros [((k, v) & <- & H)|(k & H)].
    + left. exists v. auto.
    + right. exists k. rewrite <- N in H. now apply norm_types_In in H.
  - intros [(v & H)|(k & H & _)].
    + left. exists (t, v). auto.
    + right. eauto.
Qed.
Lemma has_typing_spec rs : has_typing rs = true <-> typing_on rs.
Proof.
  unfold has_typing, typing_on. rewrite has_In, extend_reqs_In.
  unfold quantified_precondition_requirements, adl_requirements, fluents_requirements. simpl.
  intuition (try discriminate; auto).
Qed.

Section Checker.
  Variables (types : types_dict) (rs : list req).
  Hypothesis N : norm_types types = types.

  Lemma check_term_Ok t : check_term types rs t = Ok tt <-> term_typed types rs t.
  Proof.
    unfold check_term, term_typed. split.
    - intros H. apply bind_Ok in H as ([] & H1 & H2). apply check_Ok in H1, H2.
      apply orb_prop in H1. rewrite subset_string in H2. split.
      + intros NE. destruct H1 as [H1|H1]; [now apply has_typing_spec|].
        apply Nat.eqb_eq in H1. destruct (t_tags t); [congruence|discriminate].
      + intros g Hg. apply all_types_In; auto.
    - intros (A & B).
      assert (has_typing rs || Nat.eqb (length (t_tags t)) 0 = true) as ->.
      { destruct (t_tags t) as [|g l]; simpl; [now rewrite orb_true_r|].
        assert (has_typing rs = true) as -> by (apply has_typing_spec, A; discriminate). auto. }
      simpl. apply check_Ok. apply subset_string. intros g Hg. apply all_types_In; auto.
  Qed.
  Lemma check_term_err t e : check_term types rs t = Err e -> e = PDDLValidationError.
  Proof.
    unfold check_term, check. destruct (_ || _); simpl; [|now intros [= <-]].
    destruct (subset _ _ _); now intros [= <-].
  Qed.
  Lemma check_terms_Ok ts : check_terms types rs ts = Ok tt <-> forall t, In t ts -> term_typed types rs t.
  Proof.
    unfold check_terms. rewrite iterR_Ok, Forall_forall. split; intros H t Ht; apply check_term_Ok; auto.
  Qed.
  Lemma iterR_err {A} (f : A -> res unit) l e (P : exn -> Prop) :
    (forall x, In x l -> forall e, f x = Err e -> P e) -> iterR f l = Err e -> P e.
  Proof.
    induction l as [|x l IH]; simpl; [discriminate|]. intros H K. destruct (f x) as [[]|e'] eqn:F; simpl in K.
    - apply IH; auto. intros y Hy. apply H. now right.
    - inversion K; subst. apply (H x); [now left|auto].
  Qed.
  Lemma check_terms_err ts e : check_terms types rs ts = Err e -> e = PDDLValidationError.
  Proof. apply (iterR_err _ _ _ (fun e => e = PDDLValidationError)). intros x _. apply check_term_err. Qed.
  Lemma check_vars_Ok vs : check_vars types rs vs = Ok tt <-> forall v, In v vs -> term_typed types rs (TVar v).
  Proof.
    unfold check_vars. rewrite iterR_Ok, Forall_forall. split; intros H t Ht; apply check_term_Ok; auto.
  Qed.
  Lemma check_vars_err ts e : check_vars types rs ts = Err e -> e = PDDLValidationError.
  Proof. apply (iterR_err _ _ _ (fun e => e = PDDLValidationError)). intros x _. apply check_term_err. Qed.

  Lemma form_typed_ops (mk : list form -> form) ops :
    (forall t f, In f ops -> occurs t f -> occurs t (mk ops)) ->
    (forall t, occurs t (mk ops) -> exists f, In f ops /\ occurs t f) ->
    (form_typed types rs (mk ops) <-> forall f, In f ops -> form_typed types rs f).
  Proof.
    intros A B. unfold form_typed. split.
    - intros H f Hf t Ht. apply H. eapply A; eauto.
    - intros H t Ht. apply B in Ht as (f & Hf & Ht). eapply H; eauto.
  Qed.
  Lemma binfun_typed k ops : form_typed types rs (FBinFun k ops) <-> forall f, In f ops -> form_typed types rs f.
  Proof.
    apply (form_typed_ops (FBinFun k)).
    - intros. eapply O_binfun; eauto.
    - inversion 1; subst. eauto.
  Qed.
  Lemma bin_typed k ops : form_typed types rs (FBin k ops) <-> forall f, In f ops -> form_typed types rs f.
  Proof.
    apply (form_typed_ops (FBin k)).
    - intros. eapply O_bin; eauto.
    - inversion 1; subst. eauto.
  Qed.

  Lemma check_form_Ok f : check_form types rs f = Ok tt <-> form_typed types rs f.
  Proof.
    induction f using form_ind'; cbn [check_form].
    - rewrite check_terms_Ok. unfold form_typed. split; intros K t Ht.
      + inversion Ht; subst. auto.
      + apply K. now constructor.
    - unfold form_typed. split.
      + intros K. apply bind_Ok in K as ([] & K1 & K2). apply check_term_Ok in K1, K2.
        intros t Ht. inversion Ht; subst; auto.
      + intros K. rewrite (proj2 (check_term_Ok l)) by (apply K; constructor).
        apply check_term_Ok, K. constructor.
    - rewrite check_terms_Ok. unfold form_typed. split; intros K t Ht.
      + inversion Ht; subst. auto.
      + apply K. now constructor.
    - split; auto. intros _ t Ht. inversion Ht.
    - rewrite iterR_Ok, binfun_typed, <- Forall_forall. rewrite Forall_forall in H.
      rewrite !Forall_forall. split; intros K f Hf; apply H; auto.
    - rewrite iterR_Ok, bin_typed, <- Forall_forall. rewrite Forall_forall in H.
      rewrite !Forall_forall. split; intros K f Hf; apply H; auto.
    - rewrite IHf. unfold form_typed. split; intros K t Ht.
      + inversion Ht; subst; auto.
      + apply K. now constructor.
    - unfold form_typed in *. split.
      + intros K. apply bind_Ok in K as ([] & K1 & K2). rewrite check_vars_Ok in K1.
        pose proof (proj1 IHf K2) as K2'. intros t Ht. inversion Ht; subst; auto.
      + intros K. rewrite (proj2 (check_vars_Ok vs)).
        * simpl. apply (proj2 IHf). intros t Ht. apply K. now apply O_quant.
        * intros v Hv. apply K. eapply O_bound; eauto.
    - unfold form_typed in *. split.
      + intros K. apply bind_Ok in K as ([] & K1 & K2). pose proof (proj1 IHf1 K1) as K1'. pose proof (proj1 IHf2 K2) as K2'.
        intros t Ht. inversion Ht; subst; auto.
      + intros K. rewrite (proj2 IHf1).
        * apply (proj2 IHf2). intros t Ht. apply K. now apply O_when_e.
        * intros t Ht. apply K. now apply O_when_c.
    - unfold form_typed in *. split.
      + intros K. apply bind_Ok in K as ([] & K1 & K2). rewrite check_vars_Ok in K1.
        pose proof (proj1 IHf K2) as K2'. intros t Ht. inversion Ht; subst; auto.
      + intros K. rewrite (proj2 (check_vars_Ok vs)).
        * simpl. apply (proj2 IHf). intros t Ht. apply K. now apply O_forall.
        * intros v Hv. apply K. eapply O_fbound; eauto.
  Qed.
  Lemma seq_err (a b : res unit) e (P : exn -> Prop) :
    (forall e, a = Err e -> P e) -> (forall e, b = Err e -> P e) -> (a ;; b) = Err e -> P e.
  Proof. destruct a as [[]|]; simpl; auto. Qed.
  Lemma check_form_err f : forall e, check_form types rs f = Err e -> e = PDDLValidationError.
  Proof.
    induction f using form_ind'; intros e; cbn [check_form].
    - apply check_terms_err.
    - apply (seq_err _ _ _ (fun e => e = PDDLValidationError)); apply check_term_err.
    - apply check_terms_err.
    - discriminate.
    - apply (iterR_err _ _ _ (fun e => e = PDDLValidationError)). rewrite Forall_forall in H. auto.
    - apply (iterR_err _ _ _ (fun e => e = PDDLValidationError)). rewrite Forall_forall in H. auto.
    - auto.
    - apply (seq_err _ _ _ (fun e => e = PDDLValidationError)); auto. apply check_vars_err.
    - apply (seq_err _ _ _ (fun e => e = PDDLValidationError)); auto.
    - apply (seq_err _ _ _ (fun e => e = PDDLValidationError)); auto. apply check_vars_err.
  Qed.

  Lemma check_action_Ok a : check_action types rs a = Ok tt <->
    a_pre a <> None /\ a_eff a <> None /\ action_typed types rs a.
  Proof.
    unfold check_action, action_typed, opt_typed. split.
    - intros H. apply bind_Ok in H as ([] & H1 & H). apply bind_Ok in H as ([] & H2 & H3).
      rewrite check_terms_Ok in H1. destruct (a_pre a), (a_eff a); try discriminate. simpl in *.
      apply check_form_Ok in H2, H3. split; [discriminate|]. split; [discriminate|]. split; auto.
    - intros (P & E & T & TP & TE). rewrite (proj2 (check_terms_Ok _)) by auto.
      destruct (a_pre a) as [p|]; [|congruence]. destruct (a_eff a) as [q|]; [|congruence]. simpl in *.
      rewrite (proj2 (check_form_Ok _)) by auto. now apply check_form_Ok.
  Qed.
  Lemma check_action_err a e : a_pre a <> None -> a_eff a <> None -> check_action types rs a = Err e ->
    e = PDDLValidationError.
  Proof.
    intros P E. unfold check_action. destruct (a_pre a) as [p|]; [|congruence]. destruct (a_eff a) as [q|]; [|congruence].
    apply (seq_err _ _ _ (fun e => e = PDDLValidationError)); [apply check_terms_err|]. intros e'.
    apply (seq_err _ _ _ (fun e => e = PDDLValidationError)); apply check_form_err.
  Qed.
  Lemma check_has_terms_Ok tss : check_has_terms types tss = Ok tt <->
    forall ts t g, In ts tss -> In t ts -> In g (t_tags t) -> declared types g.
  Proof.
    unfold check_has_terms. rewrite check_Ok, forallb_forall. split.
    - intros H ts t g Hts Ht Hg. specialize (H ts Hts). rewrite forallb_forall in H.
      specialize (H t Ht). rewrite subset_string in H. apply all_types_In; auto.
    - intros H ts Hts. apply forallb_forall. intros t Ht. apply subset_string. intros g Hg.
      apply all_types_In; auto. eapply H; eauto.
  Qed.
End Checker.

(** ** functions *)
Lemma check_total_cost_Ok d rs : check_total_cost d rs = Ok tt <->
  ((exists n ts v, In ((n, ts), v) d /\ n = "total-cost") -> In ACTION_COSTS rs) /\
  ((exists n ts v, In ((n, ts), v) d /\ n <> "total-cost") -> In NUMERIC_FLUENTS rs \/ In FLUENTS rs).
Proof.
  assert (NF : has NUMERIC_FLUENTS (extend_reqs rs) = true <-> In NUMERIC_FLUENTS rs \/ In FLUENTS rs).
  { rewrite has_In, extend_reqs_In. unfold quantified_precondition_requirements, adl_requirements, fluents_requirements.
    simpl. intuition (try discriminate; auto). }
  assert (EX : forall p : string -> bool, existsb (fun kv : string * list term * option string => p (fst (fst kv))) d = true <->
      exists n ts v, In ((n, ts), v) d /\ p n = true).
  { intros p. rewrite existsb_exists. split.
    - intros (((n, ts), v) & H1 & H2). simpl in H2. eauto 6.
    - intros (n & ts & v & H1 & H2). exists ((n, ts), v). auto. }
  pose proof (EX (fun n => String.eqb n "total-cost")) as E1. cbv beta in E1.
  pose proof (EX (fun n => negb (String.eqb n "total-cost"))) as E2. cbv beta in E2.
  assert (E1' : existsb (fun kv : string * list term * option string => String.eqb (fst (fst kv)) "total-cost") d = true <->
      exists n ts v, In ((n, ts), v) d /\ n = "total-cost").
  { rewrite E1. split; intros (n & ts & v & H1 & H2); exists n, ts, v; split; auto.
    - now apply String.eqb_eq. - now apply String.eqb_eq. }
  assert (E2' : existsb (fun kv : string * list term * option string => negb (String.eqb (fst (fst kv)) "total-cost")) d = true <->
      exists n ts v, In ((n, ts), v) d /\ n <> "total-cost").
  { rewrite E2. split; intros (n & ts & v & H1 & H2); exists n, ts, v; split; auto.
    - apply String.eqb_neq. now apply negb_true_iff. - apply negb_true_iff. now apply String.eqb_neq. }
  clear E1 E2 EX. unfold check_total_cost. destruct d as [|x d0] eqn:Ed.
  - split; auto. intros _. split; intros (n & ts & v & [] & _).
  - rewrite <- Ed in *.
    destruct (existsb (fun kv : string * list term * option string => String.eqb (fst (fst kv)) "total-cost") d) eqn:X1.
    + pose proof (proj1 E1' eq_refl) as T.
      destruct (existsb (fun kv : string * list term * option string => negb (String.eqb (fst (fst kv)) "total-cost")) d) eqn:X2.
      * pose proof (proj1 E2' eq_refl) as U. split.
        -- intros H. apply bind_Ok in H as ([] & H1 & H2). apply check_Ok in H1, H2.
           split; intros _; [now apply has_In|now apply NF].
        -- intros (A & B). rewrite (proj2 (has_In _ _) (A T)). simpl. apply check_Ok, NF, B, U.
      * split.
        -- intros H. apply bind_Ok in H as ([] & H1 & _). apply check_Ok in H1.
           split; [intros _; now apply has_In|]. intros U. apply E2' in U. discriminate.
        -- intros (A & _). now rewrite (proj2 (has_In _ _) (A T)).
    + rewrite check_Ok, NF. split.
      * intros H. split; [|auto]. intros U. apply E1' in U. discriminate.
      * intros (_ & B). apply B. destruct x as ((n, ts), v). exists n, ts, v. subst d. split; [simpl; auto|].
        intros ->. assert (false = true) by (apply E1'; exists "total-cost", ts, v; simpl; auto). discriminate.
Qed.
