(** The printed :types section: the loop ends, every type is listed once, parents first. *)
From Coq Require Import String List Bool Arith Lia Permutation Relations.
From Verif Require Import Py Names Validation Show Spec_Print.
From Verif Require Import Py_facts Lex_facts Print_facts.
Import ListNotations.
Open Scope string_scope.
Open Scope list_scope.

(** a relation under which every element of a finite list has a successor in it has a cycle *)
Lemma successors_cycle {A} (R : A -> A -> Prop) : forall n (l : list A), length l <= n -> l <> [] ->
  (forall x, In x l -> exists y, In y l /\ clos_trans _ R x y) -> exists x, clos_trans _ R x x.
Proof.
  induction n as [|n IH]; intros l L N H.
  - destruct l; [contradiction|simpl in L; lia].
  - destruct l as [|x l]; [contradiction|].
    destruct (H x (or_introl eq_refl)) as (y & [->|Hy] & T); [eauto|].
    apply (IH l).
    + simpl in L. lia.
    + intros ->. destruct Hy.
    + intros z Hz. destruct (H z (or_intror Hz)) as (w & [<-|Hw] & Tz); [|eauto].
      exists y. split; auto. eapply t_trans; eauto.
Qed.

Lemma group_get_ungroup {V} k (v : V) d : NoDup (map fst d) ->
  (In v (group_get k d) <-> In (k, v) (ungroup d)).
Proof.
  intros N. unfold group_get, ungroup. induction d as [|[k' vs] d IH]; simpl; [tauto|].
  inversion N as [|? ? N1 N2]; subst. rewrite in_app_iff, <- IH by auto.
  destruct (option_eqb String.eqb k k') eqn:E.
  - apply okey_eqb_eq in E. subst k'. rewrite in_map_iff.
    assert (G : dict_get (option_eqb String.eqb) k d = None).
    { destruct (dict_get (option_eqb String.eqb) k d) eqn:G; auto.
      apply dict_get_In in G as (k2 & Hi & E). apply okey_eqb_eq in E. subst k2. exfalso. apply N1.
      apply in_map_iff. exists (k, l). auto. }
    rewrite G. split; [intros H; left; eauto|]. intros [(x & E & Hx)|[]]. now inversion E; subst.
  - rewrite in_map_iff. split; auto. intros [(x & E2 & Hx)|]; auto. inversion E2; subst.
    assert (option_eqb String.eqb k k = true) by now apply okey_eqb_eq. congruence.
Qed.

(** the grouping of a dictionary of types *)
Definition subtypes_of (d : types_dict) : list (option string * list string) :=
  group_by (map (fun kv => (snd kv, fst kv)) d).
Lemma subtypes_get d k t : In t (group_get k (subtypes_of d)) <-> In (t, k) d.
Proof.
  destruct (group_by_spec (map (fun kv : string * option string => (snd kv, fst kv)) d)) as (N & _ & P).
  unfold subtypes_of. rewrite group_get_ungroup by auto. split.
  - intros H. apply (Permutation_in _ P) in H. apply in_map_iff in H as ([a b] & E & Hi). now inversion E; subst.
  - intros H. apply (Permutation_in _ (Permutation_sym P)). apply in_map_iff. exists (t, k). auto.
Qed.
Lemma ungroup_nodup {V} (d : list (option string * list V)) k :
  NoDup (map snd (ungroup d)) -> NoDup (group_get k d).
Proof.
  unfold group_get. induction d as [|[k' vs] d IH]; simpl; intros N; [constructor|].
  rewrite map_app, map_map in N. cbn [snd] in N. rewrite map_id in N.
  destruct (option_eqb String.eqb k k').
  - clear IH. induction vs as [|v vs IHv]; [constructor|]. inversion N as [|? ? N1 N2]; subst.
    constructor; auto. intros Hi. apply N1. apply in_or_app. auto.
  - apply IH. clear IH. induction vs; auto. inversion N; auto.
Qed.
Lemma subtypes_nodup d k : NoDup (map fst d) -> NoDup (group_get k (subtypes_of d)).
Proof.
  intros N. apply ungroup_nodup.
  destruct (group_by_spec (map (fun kv : string * option string => (snd kv, fst kv)) d)) as (_ & _ & P).
  eapply Permutation_NoDup; [symmetry; apply Permutation_map, P|]. rewrite map_map. exact N.
Qed.
Lemma subtypes_keys d k : In k (some_keys (subtypes_of d)) <-> exists t, In (t, Some k) d.
Proof.
  destruct (group_by_spec (map (fun kv : string * option string => (snd kv, fst kv)) d)) as (_ & NE & P).
  fold (subtypes_of d) in *. unfold some_keys. rewrite in_flat_map. split.
  - intros ([[k'|] vs] & Hi & Hk); cbn in Hk; [|contradiction]. destruct Hk as [->|[]].
    rewrite Forall_forall in NE. specialize (NE _ Hi). cbn in NE. destruct vs as [|v vs]; [contradiction|].
    exists v. assert (H : In (Some k, v) (ungroup (subtypes_of d))).
    { unfold ungroup. apply in_flat_map. eexists. split; [exact Hi|]. left. reflexivity. }
    apply (Permutation_in _ P) in H. apply in_map_iff in H as ([a b] & E & Hx). now inversion E; subst.
  - intros (t & H). assert (U : In (Some k, t) (ungroup (subtypes_of d))).
    { apply (Permutation_in _ (Permutation_sym P)). apply in_map_iff. exists (t, Some k). auto. }
    unfold ungroup in U. apply in_flat_map in U as ([k' vs] & Hi & Hv). apply in_map_iff in Hv as (x & E & Hx).
    cbn in E. inversion E; subst. exists (Some k, vs). split; auto. left. reflexivity.
Qed.
Lemma some_keys_nodup {V} (d : list (option string * V)) : NoDup (map fst d) -> NoDup (some_keys d).
Proof.
  unfold some_keys. induction d as [|[[k|] v] d IH]; simpl; intros N; [constructor| |]; inversion N; subst; auto.
  constructor; auto. intros Hi. apply H1. apply in_flat_map in Hi as ([[k'|] v'] & Hi & Hk); [|destruct Hk].
  destruct Hk as [->|[]]. apply in_map_iff. exists (Some k, v'). auto.
Qed.

(** the loop *)
Definition parent_line (d : types_dict) (k : string) : type_line :=
  mkLine (sort_str (group_get (Some k) (subtypes_of d))) k.
Lemma filter_out_perm k l : NoDup l -> In k l ->
  Permutation (k :: filter (fun x => negb (String.eqb x k)) l) l.
Proof.
  induction l as [|x l IH]; simpl; [tauto|]. intros N H. inversion N as [|? ? N1 N2]; subst.
  destruct (String.eqb x k) eqn:E; cbn [negb].
  - apply String.eqb_eq in E. subst x. constructor. apply Permutation_refl'. 
    clear - N1. induction l as [|y l IH]; simpl; auto. destruct (String.eqb y k) eqn:E; cbn [negb].
    + apply String.eqb_eq in E. subst. exfalso. apply N1. left. auto.
    + f_equal. apply IH. intros C. apply N1. right. auto.
  - destruct H as [->|H]; [rewrite String.eqb_refl in E; discriminate|].
    rewrite perm_swap. constructor. auto.
Qed.
Lemma print_remaining_lines d : no_type_cycle d -> forall fuel remaining,
  length remaining <= fuel -> NoDup remaining ->
  exists ks, print_remaining fuel (subtypes_of d) remaining
             = Ok (String.concat "" (map line_text (map (parent_line d) ks)))
    /\ Permutation ks remaining
    /\ forall k1 k k2 p, ks = k1 ++ k :: k2 -> parent_of d p k -> In p remaining -> In p k1.
Proof.
  intros AC. induction fuel as [|fuel IH]; intros remaining L N.
  - destruct remaining; [|simpl in L; lia]. exists []. repeat split; auto.
    intros [|? ?] ? ? ? E; discriminate.
  - destruct remaining as [|r0 rs0] eqn:ER.
    { exists []. repeat split; auto. intros [|? ?] ? ? ? E; discriminate. }
    rewrite <- ER in *. assert (NE : remaining <> []) by (rewrite ER; discriminate).
    assert (UN : print_remaining (S fuel) (subtypes_of d) remaining =
      match find (fun k => negb (memb String.eqb k
                   (flat_map (fun k => group_get (Some k) (subtypes_of d)) remaining))) remaining with
      | None => Err ValueError
      | Some parent =>
          let* rest := print_remaining fuel (subtypes_of d)
                         (filter (fun k => negb (String.eqb k parent)) remaining) in
          Ok (line_text (parent_line d parent) +++ rest)
      end).
    { rewrite ER. reflexivity. }
    rewrite UN. clear UN. destruct (find _ remaining) as [k|] eqn:F.
    + apply find_some in F as [F1 F2]. apply negb_true_iff in F2. apply memb_string_not_In in F2.
      pose proof (filter_out_perm k remaining N F1) as P.
      destruct (IH (filter (fun x => negb (String.eqb x k)) remaining)) as (ks & E & PK & O).
      * apply Permutation_length in P. simpl in P. lia.
      * eapply Permutation_NoDup in N; [|symmetry; exact P]. now inversion N.
      * exists (k :: ks). rewrite E. cbn [bind map]. rewrite concat_cons. split; auto. split.
        { rewrite PK. exact P. }
        intros k1 k' k2 p Eq Pp Hp. destruct k1 as [|k1' k1]; cbn in Eq; inversion Eq; subst.
        -- exfalso. apply F2. apply in_flat_map. exists p. split; auto. now apply subtypes_get.
        -- destruct (String.eqb p k1') eqn:Ep; [left; symmetry; now apply String.eqb_eq|]. right.
           eapply O; eauto. apply filter_In. split; auto. now rewrite Ep.
    + exfalso.
      assert (S1 : forall x, In x remaining -> exists y, In y remaining /\ clos_trans _ (fun a b => parent_of d b a) x y).
      { intros x Hx. pose proof (find_none _ _ F x Hx) as Q. apply negb_false_iff in Q.
        apply memb_string_In in Q. apply in_flat_map in Q as (p & Hp & Hq). exists p. split; auto.
        apply t_step. now apply subtypes_get in Hq. }
      destruct (successors_cycle _ _ remaining (le_n _) NE S1) as (x & Cx).
      apply (AC x). clear - Cx. assert (G : forall a b, clos_trans string (fun a b => parent_of d b a) a b ->
        clos_trans string (parent_of d) b a).
      { induction 1; [now apply t_step|eapply t_trans; eauto]. }
      now apply G.
Qed.

(** the first line *)
Lemma no_parents_In d x : In x (no_parents (subtypes_of d)) <->
  x <> "object" /\ (((exists t, In (t, Some x) d) /\ ~ In x (map fst d)) \/ In (x, None) d \/ In (x, Some "object") d).
Proof.
  unfold no_parents. rewrite filter_In, dedup_string_In, !in_app_iff, filter_In, subtypes_keys, !subtypes_get.
  rewrite !negb_true_iff, String.eqb_neq, memb_string_not_In.
  assert (S1 : In x (flat_map snd (subtypes_of d)) <-> In x (map fst d)).
  { destruct (group_by_spec (map (fun kv : string * option string => (snd kv, fst kv)) d)) as (_ & _ & P).
    fold (subtypes_of d) in P. apply (Permutation_map snd) in P. rewrite map_map in P. cbn [snd] in P.
    assert (E : map snd (ungroup (subtypes_of d)) = flat_map snd (subtypes_of d)).
    { unfold ungroup. clear. induction (subtypes_of d) as [|[k vs] l IH]; simpl; auto.
      rewrite map_app, map_map, IH. cbn [snd]. now rewrite map_id. }
    rewrite E in P. split; apply Permutation_in; [exact P|symmetry; exact P]. }
  rewrite S1. tauto.
Qed.
Lemma no_parents_nodup d : NoDup (no_parents (subtypes_of d)).
Proof. unfold no_parents. apply NoDup_filter. apply dedup_string_NoDup. Qed.

Lemma unique_parent (d : types_dict) t o o' : NoDup (map fst d) -> In (t, o) d -> In (t, o') d -> o = o'.
Proof.
  intros N H1 H2.
  apply (dict_get_In_iff String.eqb string_eqb_equiv) in H1; [|now apply NoDupE_string].
  apply (dict_get_In_iff String.eqb string_eqb_equiv) in H2; [|now apply NoDupE_string].
  congruence.
Qed.

Lemma split_nodup {A} (x : A) l : NoDup l -> In x l -> exists a b, l = a ++ x :: b /\ ~ In x (a ++ b).
Proof.
  intros N H. apply in_split in H as (a & b & ->). exists a, b. split; auto.
  now apply NoDup_remove_2 in N.
Qed.

Lemma types_lines d : NoDup (map fst d) -> no_type_cycle d -> d <> [] ->
  exists s lines, print_types_with_parents d = Ok s /\ types_text s lines
    /\ (forall t o, In (t, o) d -> t <> "object" -> listed_once lines t (listed_parent o))
    /\ (forall l t, In l lines -> In t (tl_types l) -> (exists o, In (t, o) d) \/ exists c, In (c, Some t) d)
    /\ (forall l, In l lines -> tl_types l = [] -> forall t, In (t, None) d -> t = "object").
Proof.
  intros N AC NE.
  assert (U : print_types_with_parents d = print_types "(:types" (subtypes_of d) (")" +++ nl)).
  { destruct d; [contradiction|reflexivity]. }
  set (remaining := sort_str (filter (fun k => negb (String.eqb k "object")) (some_keys (subtypes_of d)))).
  assert (RN : NoDup remaining).
  { unfold remaining. eapply Permutation_NoDup; [symmetry; apply sort_str_perm|].
    apply NoDup_filter, some_keys_nodup.
    apply (group_by_spec (map (fun kv : string * option string => (snd kv, fst kv)) d)). }
  assert (RI : forall k, In k remaining <-> k <> "object" /\ exists t, In (t, Some k) d).
  { intros k. unfold remaining. rewrite sort_str_In, filter_In, subtypes_keys, negb_true_iff, String.eqb_neq. tauto. }
  destruct (print_remaining_lines d AC (length remaining) remaining (le_n _) RN) as (ks & E & P & O).
  assert (KN : NoDup ks) by (eapply Permutation_NoDup; [symmetry; exact P|exact RN]).
  assert (KI : forall k, In k ks <-> k <> "object" /\ exists t, In (t, Some k) d).
  { intros k. rewrite <- RI. split; apply Permutation_in; [exact P|symmetry; exact P]. }
  set (first := mkLine (sort_str (no_parents (subtypes_of d))) "object").
  assert (FI : forall x, In x (tl_types first) <-> x <> "object" /\
    (((exists t, In (t, Some x) d) /\ ~ In x (map fst d)) \/ In (x, None) d \/ In (x, Some "object") d)).
  { intros x. unfold first. cbn [tl_types]. rewrite sort_str_In. apply no_parents_In. }
  assert (LI : forall x k, In x (tl_types (parent_line d k)) <-> In (x, Some k) d).
  { intros x k. unfold parent_line. cbn [tl_types]. rewrite sort_str_In. apply subtypes_get. }
  eexists. exists (first :: map (parent_line d) ks).
  split; [rewrite U; unfold print_types; fold remaining; rewrite E; cbn [bind]; reflexivity|].
  split.
  { unfold types_text. cbn [map]. rewrite concat_cons. unfold line_text at 2, first. cbn [tl_types tl_parent].
    now rewrite !append_assoc. }
  split.
  - intros t o Hi Nt. destruct (match o with Some p => if String.eqb p "object" then None else Some p | None => None end) as [p|] eqn:Q.
    + assert (o = Some p /\ p <> "object") as [-> Np].
      { destruct o as [q|]; [|discriminate]. destruct (String.eqb q "object") eqn:Eq; [discriminate|].
        inversion Q; subst. split; auto. now apply String.eqb_neq. }
      cbn [listed_parent].
      assert (Hp : In p ks) by (apply KI; eauto).
      apply in_split in Hp as (k1 & k2 & Ek).
      assert (Ht : In t (tl_types (parent_line d p))) by now apply LI.
      assert (Nl : NoDup (tl_types (parent_line d p))).
      { unfold parent_line. cbn [tl_types]. eapply Permutation_NoDup; [symmetry; apply sort_str_perm|].
        now apply subtypes_nodup. }
      destruct (split_nodup t _ Nl Ht) as (xs & ys & Es & Nxy).
      exists (first :: map (parent_line d) k1), xs, ys, (map (parent_line d) k2).
      split; [|split; [exact Nxy|split]].
      * rewrite Ek, map_app. cbn [map app]. do 3 f_equal. unfold parent_line in *. cbn [tl_types] in Es. now rewrite Es.
      * intros l Hl Hlt. rewrite <- app_comm_cons in Hl. destruct Hl as [<-|Hl].
        -- apply FI in Hlt as [_ [[_ C]|[C|C]]].
           ++ apply C. apply in_map_iff. exists (t, Some p). auto.
           ++ pose proof (unique_parent d _ _ _ N Hi C). discriminate.
           ++ pose proof (unique_parent d _ _ _ N Hi C) as X. inversion X. contradiction.
        -- rewrite <- map_app in Hl. apply in_map_iff in Hl as (k & <- & Hk). apply LI in Hlt.
           pose proof (unique_parent d _ _ _ N Hi Hlt) as X. inversion X; subst k.
           rewrite Ek in KN. apply NoDup_remove_2 in KN. contradiction.
      * intros _. destruct (in_dec string_dec p (map fst d)) as [Hd|Hd].
        -- apply in_map_iff in Hd as ((p' & o') & Ep & Hd). cbn in Ep. subst p'.
           destruct (match o' with Some q => if String.eqb q "object" then None else Some q | None => None end) as [q|] eqn:Q'.
           ++ assert (o' = Some q /\ q <> "object") as [-> Nq].
              { destruct o' as [q'|]; [|discriminate]. destruct (String.eqb q' "object") eqn:Eq; [discriminate|].
                inversion Q'; subst. split; auto. now apply String.eqb_neq. }
              exists (parent_line d q). split; [|now apply LI]. right. apply in_map.
              eapply O; eauto. apply RI. eauto.
           ++ exists first. split; [left; auto|]. apply FI. split; auto. right.
              destruct o' as [q'|]; auto. destruct (String.eqb q' "object") eqn:Eq; [|discriminate].
              apply String.eqb_eq in Eq. subst. auto.
        -- exists first. split; [left; auto|]. apply FI. split; auto. left. split; eauto.
    + assert (Eo : listed_parent o = "object").
      { destruct o as [q|]; auto. destruct (String.eqb q "object") eqn:Eq; [|discriminate]. now apply String.eqb_eq in Eq. }
      rewrite Eo.
      assert (Ht : In t (tl_types first)).
      { apply FI. split; auto. right. destruct o as [q|]; auto. cbn in Eo. subst q. auto. }
      assert (Nl : NoDup (tl_types first)).
      { unfold first. cbn [tl_types]. eapply Permutation_NoDup; [symmetry; apply sort_str_perm|]. apply no_parents_nodup. }
      destruct (split_nodup t _ Nl Ht) as (xs & ys & Es & Nxy).
      exists [], xs, ys, (map (parent_line d) ks). split; [|split; [exact Nxy|split]].
      * cbn [app]. f_equal. unfold first in *. cbn [tl_types] in Es. now rewrite Es.
      * cbn [app]. intros l Hl Hlt. apply in_map_iff in Hl as (k & <- & Hk). apply LI in Hlt.
        pose proof (unique_parent d _ _ _ N Hi Hlt) as ->. apply KI in Hk as [Hk _]. cbn in Eo. contradiction.
      * intros C. contradiction.
  - split.
    + intros l t [<-|Hl] Ht.
      * apply FI in Ht as [_ [[Ht _]|[Ht|Ht]]]; eauto.
      * apply in_map_iff in Hl as (k & <- & Hk). apply LI in Ht. eauto.
    + intros l Hl El t Ht. destruct Hl as [<-|Hl].
      * destruct (string_dec t "object") as [|Nt]; auto. assert (In t (tl_types first)) as C by (apply FI; tauto).
        rewrite El in C. destruct C.
      * apply in_map_iff in Hl as (k & <- & Hk). apply KI in Hk as (_ & x & Hx). apply LI in Hx.
        rewrite El in Hx. destruct Hx.
Qed.

(** ** domains that were constructed can be printed *)
From Verif Require Import Core Spec_Core Cycle_facts Validation_facts CoreEq_facts.
Lemma built_types d : domain_built d -> NoDup (map fst (d_types d)) /\ no_type_cycle (d_types d).
Proof.
  intros (n & rs & ty & cs & ps & dps & fs & acts & H).
  apply mk_domain_inv in H as (_ & _ & _ & Ht & _).
  assert (N : NoDup (map fst (d_types d))) by (apply NoDupE_string; eapply mk_types_keys; eauto).
  split; auto. unfold mk_types in Ht. apply bind_Ok in Ht as (t & H1 & Ht). apply bind_Ok in Ht as ([] & H2 & Ht).
  inversion Ht; subst. apply check_types_dictionary_Ok in H2 as (_ & _ & H2); auto.
  intros n0 C. apply (H2 n0). clear - C.
  assert (G : forall a b, clos_trans string (parent_of (d_types d)) a b ->
    clos_trans string (fun a b => In (a, Some b) (d_types d)) b a).
  { induction 1; [now apply t_step|eapply t_trans; eauto]. }
  now apply G.
Qed.
Lemma show_domain_total d : domain_built d -> exists s, show_domain d = Ok s.
Proof.
  intros B. destruct (built_types d B) as [N AC].
  assert (T : exists s, print_types_with_parents (d_types d) = Ok s).
  { destruct (d_types d) as [|x l] eqn:E; [exists ""; reflexivity|]. rewrite <- E in *.
    destruct (types_lines (d_types d) N AC) as (s & _ & H & _); [rewrite E; discriminate|eauto]. }
  destruct T as (s & T). unfold show_domain, domain_body. rewrite T. cbn [bind]. eauto.
Qed.
