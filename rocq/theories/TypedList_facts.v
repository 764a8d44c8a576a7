(** Proofs about TypedList.v. *)
From Coq Require Import String List Bool Arith Lia.
From Verif Require Import Py Names Logic TypedList Py_facts Logic_facts Names_facts Spec_Parse.
Import ListNotations.
Open Scope string_scope.
Open Scope list_scope.

Section Gen.
  Context {A : Type} (eqb : A -> A -> bool) (E : is_equiv eqb) (parse_item : A -> res A).

  (** the effect of the whole loop on the assigned items *)
  Fixpoint add_all (dup : bool) (ix : tindex) (l : list (A * list string)) : res tindex :=
    match l with
    | [] => Ok ix
    | (a, tags) :: l' =>
        let* a' := parse_item a in
        let* tags' := mapR parse_type tags in
        let* ix' := add_item eqb dup ix a' (dedup String.eqb tags') in
        add_all dup ix' l'
    end.

  Lemma add_typed_lists_all dup items tags : forall ix,
    add_typed_lists eqb parse_item dup ix (map IItem items) tags
    = add_all dup ix (map (fun a => (a, tags)) items).
  Proof.
    induction items as [|a items IH]; simpl; auto. intros ix.
    destruct (parse_item a); simpl; auto.
    destruct (mapR parse_type tags); simpl; auto.
    destruct (add_item eqb dup ix a0 _); simpl; auto.
  Qed.
  Lemma add_all_app dup l m : forall ix,
    add_all dup ix (l ++ m) = bind (add_all dup ix l) (fun ix' => add_all dup ix' m).
  Proof.
    induction l as [|[a gs] l IH]; simpl; auto. intros ix.
    destruct (parse_item a); simpl; auto.
    destruct (mapR parse_type gs); simpl; auto.
    destruct (add_item eqb dup ix a0 _); simpl; auto.
  Qed.

  Lemma find_sep_items n items (rest : list (titem A)) :
    find_sep n (map IItem items ++ rest) = find_sep (n + length items) rest.
  Proof.
    revert n. induction items as [|a items IH]; simpl; intros n; [f_equal; lia|].
    rewrite IH. f_equal. lia.
  Qed.
  Lemma find_sep_none n items : find_sep n (map (@IItem A) items) = None.
  Proof.
    rewrite <- (app_nil_r (map IItem items)), find_sep_items. reflexivity.
  Qed.
  Lemma skipn_app_len {B} (l m : list B) : skipn (length l) (l ++ m) = m.
  Proof. rewrite skipn_app, skipn_all, Nat.sub_diag. reflexivity. Qed.

  Definition pre_tokens (groups : list (list A * list string)) : list (titem A) :=
    flat_map (fun g => map IItem (fst g) ++ [ISep; ITypes (snd g)]) groups.

  Lemma typed_loop_groups dup tail gs : forall fuel pre ix,
    length gs < fuel ->
    typed_loop eqb parse_item fuel dup (pre ++ typed_tokens gs tail) ix (length pre)
    = add_all dup ix (assigned gs tail).
  Proof.
    induction gs as [|[items tags] gs IH]; intros fuel pre ix Hf;
      (destruct fuel as [|fuel]; [simpl in Hf; lia|]); cbn [typed_loop];
      unfold sep_index; rewrite skipn_app_len; unfold typed_tokens, assigned; cbn [flat_map app].
    - rewrite find_sep_none, app_length, map_length.
      destruct tail as [|t tail].
      + simpl. rewrite Nat.add_0_r, Nat.eqb_refl. reflexivity.
      + replace (Nat.eqb _ _) with false by (symmetry; apply Nat.eqb_neq; simpl; lia).
        unfold slice.
        rewrite skipn_app_len, firstn_all2; [|rewrite map_length; lia].
        apply add_typed_lists_all.
    - cbn [fst snd]. rewrite <- !app_assoc. rewrite find_sep_items. cbn [app find_sep].
      replace (nth_error _ _) with (Some (@ITypes A tags)).
      + unfold slice. rewrite skipn_app_len.
        replace (length pre + length items - length pre) with (length (map (@IItem A) items))
          by (rewrite map_length; lia).
        rewrite firstn_app, firstn_all, Nat.sub_diag, firstn_O, app_nil_r.
        rewrite add_typed_lists_all, add_all_app.
        destruct (add_all dup ix (map _ items)) as [ix'|e]; simpl; auto.
        specialize (IH fuel (pre ++ map IItem items ++ [ISep; ITypes tags]) ix').
        etransitivity; [|apply IH; simpl in Hf; lia]. f_equal.
        * rewrite <- !app_assoc. simpl. unfold typed_tokens. reflexivity.
        * rewrite !app_length, map_length. simpl. lia.
      + rewrite nth_error_app2 by lia.
        rewrite nth_error_app2 by (rewrite map_length; lia).
        rewrite map_length. replace (_ - _ - _) with 1 by lia. reflexivity.
  Qed.

  Lemma length_pre gs : length gs <= length (pre_tokens gs).
  Proof.
    induction gs as [|g gs IH]; simpl; auto. unfold pre_tokens in *. simpl.
    rewrite !app_length. simpl. lia.
  Qed.

  Lemma parse_typed_list_all dup gs tail :
    parse_typed_list eqb parse_item (typed_tokens gs tail) dup
    = add_all dup (mkIndex [] []) (assigned gs tail).
  Proof.
    unfold parse_typed_list.
    destruct (sep_index 0 (typed_tokens gs tail)) as [n|] eqn:S0.
    - apply (typed_loop_groups dup tail gs _ []). unfold typed_tokens. rewrite app_length.
      pose proof (length_pre gs). unfold pre_tokens in *. lia.
    - destruct gs as [|[items tags] gs].
      + unfold typed_tokens, assigned, slice. simpl.
        rewrite Nat.sub_0_r, firstn_all2 by lia. apply add_typed_lists_all.
      + exfalso. unfold sep_index, typed_tokens in S0. cbn [skipn flat_map fst snd] in S0.
        rewrite <- !app_assoc in S0. rewrite find_sep_items in S0. discriminate.
  Qed.
End Gen.

(** ** what add_all computes, when items and types are valid *)
Section Valid.
  Context {A : Type} (eqb : A -> A -> bool) (E : is_equiv eqb) (parse_item : A -> res A).
  Hypothesis item_id : forall a b, parse_item a = Ok b -> b = a.

  Definition valid (l : list (A * list string)) : Prop :=
    forall a gs, In (a, gs) l -> parse_item a = Ok a /\ Forall legal_type gs.

  Lemma mapR_type gs gs' : mapR parse_type gs = Ok gs' <-> gs' = gs /\ Forall legal_type gs.
  Proof. exact (to_type_Ok gs gs'). Qed.

  (** all indexed tag lists are duplicate free *)
  Definition nodups (l : list (A * list string)) : Prop := forall a gs, In (a, gs) l -> NoDup gs.

  (** the index after [l], in the two modes *)
  Definition index_ok (ix : @tindex A) : Prop :=
    forall a gs, dict_get eqb a (ti_items ix) = Some gs -> NoDup gs.

  Lemma union_same gs hs : set_eqb String.eqb gs hs = true -> NoDup gs ->
    union String.eqb gs hs = gs.
  Proof.
    intros S N. unfold union, dedup.
    assert (G : forall seen l, (forall x, In x l -> memb String.eqb x seen = true) ->
                 dedup_from String.eqb seen l = []).
    { intros seen l. revert seen. induction l as [|x l IH]; simpl; auto. intros seen H.
      rewrite H by auto. apply IH. auto. }
    assert (F : forall seen l, NoDup l -> (forall x, In x l -> ~ In x seen) ->
                 (forall x, In x hs -> In x seen \/ In x l) ->
                 dedup_from String.eqb seen (l ++ hs) = l).
    { intros seen l. revert seen. induction l as [|x l IH]; simpl; intros seen Nd D C.
      - apply G. intros x Hx. apply memb_string_In. destruct (C x Hx); tauto.
      - inversion Nd; subst.
        destruct (memb String.eqb x seen) eqn:M.
        + apply memb_string_In in M. exfalso. eapply D; eauto.
        + f_equal. apply IH; auto.
          * intros y Hy [->|Hs]; [contradiction|]. eapply D; eauto.
          * intros y Hy. destruct (C y Hy) as [|[->|]]; simpl; auto. }
    apply F; auto. intros x Hx. right.
    rewrite set_eqb_string in S. now apply S.
  Qed.

  (** one step *)
  Lemma add_item_dup ix a tags : index_ok ix ->
    NoDup tags ->
    add_item eqb true ix a tags =
      match dict_get eqb a (ti_items ix) with
      | Some prev => if set_eqb String.eqb prev tags
                     then Ok (mkIndex (dict_set eqb a prev (ti_items ix))
                                      (ti_seq ix ++ [(a, tags)]))
                     else Err ValueError
      | None => Ok (mkIndex (dict_set eqb a tags (ti_items ix)) (ti_seq ix ++ [(a, tags)]))
      end.
  Proof.
    intros Hix Hn. unfold add_item, check_item_types, add_item_unchecked. cbn [bind].
    destruct (dict_get eqb a (ti_items ix)) as [prev|] eqn:D; simpl.
    - destruct (set_eqb String.eqb prev tags) eqn:S; simpl; auto.
      do 3 f_equal. apply union_same; auto. eapply Hix; eauto.
    - unfold union. simpl. rewrite dedup_string_id; auto.
  Qed.

  Lemma add_item_nodup ix a tags : NoDup tags ->
    add_item eqb false ix a tags =
      match dict_get eqb a (ti_items ix) with
      | Some _ => Err ValueError
      | None => Ok (mkIndex (ti_items ix ++ [(a, tags)]) (ti_seq ix ++ [(a, tags)]))
      end.
  Proof.
    intros Hn. unfold add_item, check_item_name_already_present, check_tags_already_present,
      check_item_types, add_item_unchecked, dict_has.
    destruct (dict_get eqb a (ti_items ix)) as [prev|] eqn:D; simpl; auto.
    assert (X : existsb (fun _ : string => false) tags = false)
      by (clear; induction tags; auto).
    rewrite X. simpl. unfold union. simpl. rewrite dedup_string_id; auto.
    rewrite dict_set_new; auto.
    pose proof (dict_get_memb eqb a (ti_items ix)) as M. now rewrite D in M.
  Qed.

  (** ** lists in which repeated items are allowed *)
  Definition agree (l : list (A * list string)) : Prop :=
    forall a b gs hs, In (a, gs) l -> In (b, hs) l -> eqb a b = true -> same_set gs hs.
  (** the items of the index represent the sequence *)
  Definition represents (ix : @tindex A) : Prop :=
    forall a, match dict_get eqb a (ti_items ix) with
              | Some gs => exists b, In (b, gs) (ti_seq ix) /\ eqb a b = true
              | None => forall b gs, In (b, gs) (ti_seq ix) -> eqb a b = false
              end.

  Lemma add_all_dup l : forall ix,
    valid l -> nodups l -> index_ok ix -> represents ix -> agree (ti_seq ix) ->
    (agree (ti_seq ix ++ l) /\ exists items,
       add_all eqb parse_item true ix l = Ok (mkIndex items (ti_seq ix ++ l)))
    \/ (~ agree (ti_seq ix ++ l) /\ add_all eqb parse_item true ix l = Err ValueError).
  Proof.
    induction l as [|[a gs] l IH]; intros ix V N I R G.
    - left. rewrite app_nil_r. split; auto. exists (ti_items ix). destruct ix; reflexivity.
    - cbn [add_all].
      destruct (V a gs) as [Va Vg]; [left; auto|].
      assert (Ng : NoDup gs) by (eapply N; left; eauto).
      rewrite Va. cbn [bind]. rewrite (proj2 (mapR_type gs gs)); auto. cbn [bind].
      rewrite dedup_string_id by auto. rewrite add_item_dup by auto.
      assert (V' : valid l) by (intros b hs Hb; apply V; right; auto).
      assert (N' : nodups l) by (intros b hs Hb; apply (N b); right; auto).
      pose proof (R a) as Ra.
      destruct (dict_get eqb a (ti_items ix)) as [prev|] eqn:D.
      + destruct Ra as (b & Hb & Hab).
        destruct (set_eqb String.eqb prev gs) eqn:S; cbn [bind].
        * specialize (IH (mkIndex (dict_set eqb a prev (ti_items ix)) (ti_seq ix ++ [(a, gs)]))).
          cbn [ti_items ti_seq] in IH. rewrite <- app_assoc in IH. cbn [app] in IH. apply IH; auto.
          -- intros c hs. cbn [ti_items]. rewrite dict_get_set by auto.
             destruct (eqb c a) eqn:Q; [|apply I]. intros [= <-]. eapply I; eauto.
          -- intros c. cbn [ti_items ti_seq]. rewrite dict_get_set by auto. destruct (eqb c a) eqn:Q.
             ++ exists b. split; [apply in_or_app; auto|]. eapply (eqv_trans _ E); eauto.
             ++ specialize (R c). destruct (dict_get eqb c (ti_items ix)).
                ** destruct R as (e & He & Hce). exists e. split; auto. apply in_or_app; auto.
                ** intros e hs He. apply in_app_or in He as [He|[[= <- <-]|[]]]; auto.
                   eapply R; eauto.
          -- cbn [ti_seq]. intros c e xs ys Hc He Hce. rewrite set_eqb_string in S.
             apply in_app_or in Hc as [Hc|[[= <- <-]|[]]];
               apply in_app_or in He as [He|[[= <- <-]|[]]].
             ++ eapply G; eauto.
             ++ intros z. rewrite <- (S z). eapply G; eauto. eapply (eqv_trans _ E); eauto.
             ++ intros z. rewrite <- (S z). eapply G; eauto.
                rewrite (eqv_sym _ E). eapply (eqv_trans _ E); [|exact Hab].
                now rewrite (eqv_sym _ E).
             ++ intros z; tauto.
        * right. split; auto. intros Bad.
          assert (X : set_eqb String.eqb prev gs = true); [|congruence].
          apply set_eqb_string. apply (Bad b a).
          -- apply in_or_app; auto.
          -- apply in_or_app; right; left; auto.
          -- now rewrite (eqv_sym _ E).
      + cbn [bind].
        specialize (IH (mkIndex (dict_set eqb a gs (ti_items ix)) (ti_seq ix ++ [(a, gs)]))).
        cbn [ti_items ti_seq] in IH. rewrite <- app_assoc in IH. cbn [app] in IH. apply IH; auto.
        * intros c hs. cbn [ti_items]. rewrite dict_get_set by auto.
          destruct (eqb c a) eqn:Q; [|apply I]. intros [= <-]. auto.
        * intros c. cbn [ti_items ti_seq]. rewrite dict_get_set by auto. destruct (eqb c a) eqn:Q.
          -- exists a. split; auto. apply in_or_app; right; left; auto.
          -- specialize (R c). destruct (dict_get eqb c (ti_items ix)).
             ++ destruct R as (e & He & Hce). exists e. split; auto. apply in_or_app; auto.
             ++ intros e hs He. apply in_app_or in He as [He|[[= <- <-]|[]]]; auto.
                eapply R; eauto.
        * cbn [ti_seq]. intros c e xs ys Hc He Hce.
          apply in_app_or in Hc as [Hc|[[= <- <-]|[]]];
            apply in_app_or in He as [He|[[= <- <-]|[]]].
          -- eapply G; eauto.
          -- rewrite (eqv_sym _ E) in Hce. rewrite (Ra c xs Hc) in Hce. discriminate.
          -- rewrite (Ra e ys He) in Hce. discriminate.
          -- intros z; tauto.
  Qed.

  (** ** lists in which they are not *)
  Lemma NoDupE_app_comm_cons l m a : NoDupE eqb (l ++ a :: m) <-> NoDupE eqb ((l ++ [a]) ++ m).
  Proof. now rewrite <- app_assoc. Qed.

  Lemma add_all_nodup l : forall done,
    valid l -> nodups l -> NoDupE eqb (map fst done) ->
    add_all eqb parse_item false (mkIndex done done) l
    = if Nat.eqb (length (dedup eqb (map fst (done ++ l)))) (length (done ++ l))
      then Ok (mkIndex (done ++ l) (done ++ l)) else Err ValueError.
  Proof.
    assert (Len : forall seen l0, length (dedup_from eqb seen l0) <= length l0).
    { intros seen l0. revert seen. induction l0; simpl; auto. intros.
      destruct (memb eqb a seen); simpl; auto. apply le_n_S. auto. }
    assert (Full : forall l0, length (dedup eqb l0) = length l0 -> NoDupE eqb l0).
    { assert (X : forall l0 seen, length (dedup_from eqb seen l0) = length l0 ->
                 NoDupE eqb l0 /\ forall x, In x l0 -> memb eqb x seen = false).
      { induction l0 as [|x l0 IH]; simpl; intros seen H.
        - split; [constructor|tauto].
        - destruct (memb eqb x seen) eqn:M.
          + pose proof (Len seen l0). lia.
          + simpl in H. apply eq_add_S in H. apply IH in H as [H1 H2]. split.
            * constructor; auto. apply memb_false. intros y Hy. specialize (H2 y Hy).
              simpl in H2. apply orb_false_iff in H2 as [H2 _]. now rewrite (eqv_sym _ E).
            * intros y [<-|Hy]; auto. specialize (H2 y Hy). simpl in H2.
              now apply orb_false_iff in H2 as [_ H2]. }
      intros l0 H. now apply X in H. }
    induction l as [|[a gs] l IH]; intros done V N D.
    - rewrite app_nil_r. rewrite dedup_id by auto. rewrite map_length, Nat.eqb_refl. reflexivity.
    - cbn [add_all].
      destruct (V a gs) as [Va Vg]; [left; auto|].
      assert (Ng : NoDup gs) by (eapply N; left; eauto).
      rewrite Va. cbn [bind]. rewrite (proj2 (mapR_type gs gs)); auto. cbn [bind].
      rewrite dedup_string_id by auto. rewrite add_item_nodup by auto. cbn [ti_items ti_seq].
      pose proof (dict_get_memb eqb a done) as M.
      destruct (dict_get eqb a done) as [prev|]; cbn [bind].
      + destruct (Nat.eqb_spec (length (dedup eqb (map fst (done ++ (a, gs) :: l))))
                               (length (done ++ (a, gs) :: l))) as [H|H]; auto.
        exfalso. rewrite <- (map_length fst (done ++ _)) in H. apply Full in H.
        rewrite map_app in H. apply NoDupE_app_inv in H as (_ & _ & H); auto.
        apply memb_In in M as (b & Hb & Hab). specialize (H b Hb). simpl in H.
        rewrite (eqv_sym _ E), Hab in H. discriminate.
      + rewrite IH.
        * now rewrite <- app_assoc.
        * intros b hs Hb; apply V; right; auto.
        * intros b hs Hb; apply (N b); right; auto.
        * rewrite map_app. apply NoDupE_app.
          -- auto.
          -- constructor; [reflexivity|constructor].
          -- intros x Hx. simpl. rewrite orb_false_r. rewrite memb_false in M.
             rewrite (eqv_sym _ E). now apply M.
  Qed.

  (** invalid items or types make the parse fail *)
  Lemma add_all_valid dup l : forall ix ix',
    add_all eqb parse_item dup ix l = Ok ix' -> valid l.
  Proof.
    induction l as [|[a gs] l IH]; intros ix ix' H; [intros ? ? []|].
    cbn [add_all] in H.
    apply bind_Ok in H as (a' & Ha & H). apply bind_Ok in H as (gs' & Hg & H).
    apply bind_Ok in H as (ix1 & _ & H). apply IH in H.
    pose proof (item_id _ _ Ha). subst. apply mapR_type in Hg as [_ Hg].
    intros b hs [[= <- <-]|Hb]; auto.
  Qed.
End Valid.

Lemma assigned_nodups {A} gs (tail : list A) : nodups (assigned gs tail).
Proof.
  intros a hs H. unfold assigned in H. apply in_app_or in H as [H|H].
  - apply in_flat_map in H as (g & _ & H). apply in_map_iff in H as (b & [= <- <-] & _).
    apply dedup_string_NoDup.
  - apply in_map_iff in H as (b & [= <- <-] & _). constructor.
Qed.

(** ** the two kinds of lists of names *)
Definition var_list (toks : list (titem string)) : res (list (string * list string)) :=
  let* ix := parse_typed_list String.eqb parse_name toks true in Ok (typed_list_of_variables ix).
Definition name_list (toks : list (titem string)) : res (list (string * option string)) :=
  let* ix := parse_typed_list String.eqb parse_name toks false in typed_list_of_names ix.

Lemma valid_legal l : valid parse_name l <-> legal_items l.
Proof.
  unfold valid, legal_items. split; intros H a gs Hi; destruct (H a gs Hi); split; auto;
    now apply parse_name_Ok.
Qed.
Lemma agree_repeats l : agree String.eqb l <-> repeats_agree l.
Proof.
  unfold agree, repeats_agree. split.
  - intros H a gs hs H1 H2. eapply H; eauto. apply String.eqb_refl.
  - intros H a b gs hs H1 H2 He. apply String.eqb_eq in He. subst. eauto.
Qed.

Lemma empty_represents {A} (eqb : A -> A -> bool) : represents eqb (mkIndex [] []).
Proof. intros a. simpl. intros b gs []. Qed.

Lemma var_list_spec gs tail : legal_items (assigned gs tail) ->
  (repeats_agree (assigned gs tail) /\ var_list (typed_tokens gs tail) = Ok (assigned gs tail))
  \/ (~ repeats_agree (assigned gs tail) /\ var_list (typed_tokens gs tail) = Err ValueError).
Proof.
  intros L. unfold var_list. rewrite parse_typed_list_all.
  destruct (add_all_dup String.eqb string_eqb_equiv parse_name (assigned gs tail) (mkIndex [] []))
    as [[G (items & H)]|[G H]].
  - now apply valid_legal.
  - apply assigned_nodups.
  - intros a hs. simpl. discriminate.
  - apply empty_represents.
  - intros a b ? ? [].
  - left. simpl in G, H. rewrite H. split; auto. now apply agree_repeats.
  - right. simpl in G, H. rewrite H. split; auto. now rewrite <- agree_repeats.
Qed.
Lemma var_list_Ok gs tail r :
  var_list (typed_tokens gs tail) = Ok r <->
  r = assigned gs tail /\ legal_items r /\ repeats_agree r.
Proof.
  split.
  - intros H. assert (L : legal_items (assigned gs tail)).
    { unfold var_list in H. rewrite parse_typed_list_all in H.
      apply bind_Ok in H as (ix & H & _).
      apply (add_all_valid _ _ parse_name_id) in H. now apply valid_legal. }
    destruct (var_list_spec gs tail L) as [[G H']|[G H']]; rewrite H' in H; [|discriminate].
    inversion H; subst. auto.
  - intros (-> & L & G). destruct (var_list_spec gs tail L) as [[_ H]|[N _]]; tauto.
Qed.

(** a name has at most one type *)
Definition one_tag (l : list string) : option (option string) :=
  match l with [] => Some None | [g] => Some (Some g) | _ => None end.

Lemma mapR_names (l : list (string * list string)) :
  mapR (fun kv => match snd kv with
                  | [] => Ok (fst kv, None)
                  | [g] => Ok (fst kv, Some g)
                  | _ => Err ValueError
                  end) l
  = if forallb (fun kv => Nat.leb (length (snd kv)) 1) l
    then Ok (map (fun kv => (fst kv, hd_error (snd kv))) l) else Err ValueError.
Proof.
  induction l as [|[a gs] l IH]; simpl; auto.
  destruct gs as [|g [|h gs]]; simpl; auto; rewrite IH; destruct (forallb _ l); reflexivity.
Qed.

Lemma NoDup_dedup_length l : NoDup l <-> length (dedup String.eqb l) = length l.
Proof.
  split.
  - intros H. now rewrite dedup_string_id.
  - assert (Len : forall seen l0, length (dedup_from String.eqb seen l0) <= length l0).
    { intros seen l0. revert seen. induction l0; simpl; auto. intros.
      destruct (memb String.eqb a seen); simpl; auto. apply le_n_S. auto. }
    assert (X : forall l0 seen, length (dedup_from String.eqb seen l0) = length l0 ->
                 NoDup l0 /\ forall x, In x l0 -> ~ In x seen).
    { induction l0 as [|x l0 IH]; simpl; intros seen H.
      - split; [constructor|tauto].
      - destruct (memb String.eqb x seen) eqn:M.
        + pose proof (Len seen l0). lia.
        + simpl in H. apply eq_add_S in H. apply IH in H as [H1 H2].
          apply memb_string_not_In in M. split.
          * constructor; auto. intros Hx. apply (H2 x Hx). left; auto.
          * intros y [<-|Hy]; auto. intros Hs. apply (H2 y Hy). right; auto. }
    intros H. now apply X in H.
Qed.

Lemma name_list_spec gs tail : legal_items (assigned gs tail) ->
  name_list (typed_tokens gs tail)
  = if Nat.eqb (length (dedup String.eqb (map fst (assigned gs tail))))
               (length (assigned gs tail))
       && forallb (fun kv => Nat.leb (length (snd kv)) 1) (assigned gs tail)
    then Ok (map (fun kv => (fst kv, hd_error (snd kv))) (assigned gs tail))
    else Err ValueError.
Proof.
  intros L. unfold name_list. rewrite parse_typed_list_all.
  pose proof (add_all_nodup String.eqb string_eqb_equiv parse_name (assigned gs tail) []) as H.
  simpl in H. rewrite H.
  - destruct (Nat.eqb _ _); cbn [bind andb]; auto. apply mapR_names.
  - now apply valid_legal.
  - apply assigned_nodups.
  - constructor.
Qed.

Lemma name_list_Ok gs tail r :
  name_list (typed_tokens gs tail) = Ok r <->
  r = map (fun kv => (fst kv, hd_error (snd kv))) (assigned gs tail)
  /\ legal_items (assigned gs tail) /\ NoDup (map fst (assigned gs tail))
  /\ Forall (fun kv => length (snd kv) <= 1) (assigned gs tail).
Proof.
  split.
  - intros H. assert (L : legal_items (assigned gs tail)).
    { unfold name_list in H. rewrite parse_typed_list_all in H.
      apply bind_Ok in H as (ix & H & _).
      apply (add_all_valid _ _ parse_name_id) in H. now apply valid_legal. }
    rewrite name_list_spec in H by auto.
    destruct (Nat.eqb _ _ && _) eqn:B; [|discriminate]. inversion H; subst.
    apply andb_prop in B as [B1 B2]. split; auto. split; auto. split.
    + apply NoDup_dedup_length. rewrite map_length. now apply Nat.eqb_eq.
    + rewrite forallb_forall in B2. apply Forall_forall. intros x Hx. apply Nat.leb_le. auto.
  - intros (-> & L & N & F). rewrite name_list_spec by auto.
    apply NoDup_dedup_length in N. rewrite map_length in N. rewrite N, Nat.eqb_refl.
    replace (forallb _ _) with true; auto. symmetry. apply forallb_forall. intros x Hx.
    rewrite Forall_forall in F. apply Nat.leb_le. auto.
Qed.
Lemma name_list_Err gs tail : legal_items (assigned gs tail) ->
  ~ (NoDup (map fst (assigned gs tail))
     /\ Forall (fun kv => length (snd kv) <= 1) (assigned gs tail)) ->
  name_list (typed_tokens gs tail) = Err ValueError.
Proof.
  intros L H. destruct (name_list (typed_tokens gs tail)) as [r|e] eqn:N.
  - apply name_list_Ok in N. tauto.
  - rewrite name_list_spec in N by auto. destruct (_ && _); congruence.
Qed.
Lemma var_list_Err gs tail : legal_items (assigned gs tail) ->
  ~ repeats_agree (assigned gs tail) -> var_list (typed_tokens gs tail) = Err ValueError.
Proof. intros L H. destruct (var_list_spec gs tail L) as [[G _]|[_ X]]; tauto. Qed.
