(** Facts about pddl/formatter.py: grouping, sorting and the typed lists it prints. *)
From Coq Require Import String List Bool Arith Lia Permutation.
From Verif Require Import Py Names Logic Core Lexer Show Parser Spec_Parse.
From Verif Require Import Py_facts Names_facts Logic_facts Lex_facts Parse_facts Text_facts.
Import ListNotations.
Open Scope string_scope.
Open Scope list_scope.

(** ** sorting by a key *)
Definition sorted_by {V} (f : V -> string) (l : list V) : list V :=
  sort_by (fun a b => str_lt (f a) (f b)) l.
Lemma sort_str_map {V} (f : V -> string) l : sort_str (map f l) = map f (sorted_by f l).
Proof.
  unfold sort_str, sorted_by.
  assert (I : forall x m, insert str_lt (f x) (map f m)
                          = map f (insert (fun a b => str_lt (f a) (f b)) x m)).
  { intros x m. induction m as [|y m IH]; simpl; auto. rewrite IH. now destruct (str_lt (f y) (f x)). }
  induction l as [|x l IH]; simpl; auto. now rewrite IH, I.
Qed.
Lemma sorted_by_perm {V} (f : V -> string) l : Permutation (sorted_by f l) l.
Proof. apply sort_perm. Qed.
Lemma sorted_by_Forall {V} (f : V -> string) (P : V -> Prop) l : Forall P l -> Forall P (sorted_by f l).
Proof. intros H. eapply Permutation_Forall; [symmetry; apply sorted_by_perm|exact H]. Qed.

(** ** grouping *)
Lemma okey_eqb_eq a b : option_eqb String.eqb a b = true <-> a = b.
Proof.
  destruct a, b; simpl; try (split; congruence). rewrite String.eqb_eq. split; congruence.
Qed.
(** the pairs of a grouping *)
Definition ungroup {V} (d : list (option string * list V)) : list (option string * V) :=
  flat_map (fun kv => map (fun v => (fst kv, v)) (snd kv)) d.
Lemma group_add_keys {V} k (v : V) d : map fst (group_add k v d) =
  if existsb (option_eqb String.eqb k) (map fst d) then map fst d else map fst d ++ [k].
Proof.
  induction d as [|[k' vs] d IH]; simpl; auto.
  destruct (option_eqb String.eqb k k') eqn:E; simpl; auto.
  rewrite IH. now destruct (existsb (option_eqb String.eqb k) (map fst d)).
Qed.
Lemma group_add_ungroup {V} k (v : V) d :
  Permutation (ungroup (group_add k v d)) ((k, v) :: ungroup d).
Proof.
  induction d as [|[k' vs] d IH]; simpl; auto.
  destruct (option_eqb String.eqb k k') eqn:E; simpl.
  - apply okey_eqb_eq in E. subst k'. rewrite map_app, <- app_assoc. simpl. symmetry. apply Permutation_middle.
  - rewrite IH. symmetry. apply Permutation_middle.
Qed.
Lemma group_add_NoDup {V} k (v : V) d : NoDup (map fst d) -> NoDup (map fst (group_add k v d)).
Proof.
  intros N. rewrite group_add_keys. destruct (existsb _ _) eqn:E; auto.
  apply Permutation_NoDup with (l := k :: map fst d).
  - apply Permutation_cons_append.
  - constructor; auto. intros Hi. assert (existsb (option_eqb String.eqb k) (map fst d) = true); [|congruence].
    apply existsb_exists. exists k. split; auto. now apply okey_eqb_eq.
Qed.
Lemma group_add_nonempty {V} k (v : V) d : Forall (fun kv => snd kv <> []) d ->
  Forall (fun kv => snd kv <> []) (group_add k v d).
Proof.
  induction 1 as [|[k' vs] d H F IH]; simpl.
  - constructor; auto. discriminate.
  - destruct (option_eqb String.eqb k k'); constructor; auto. cbn in *. now destruct vs.
Qed.
Lemma group_fold {V} (l : list (option string * V)) : forall d,
  NoDup (map fst d) -> Forall (fun kv => snd kv <> []) d ->
  let d' := fold_left (fun d kv => group_add (fst kv) (snd kv) d) l d in
  NoDup (map fst d') /\ Forall (fun kv => snd kv <> []) d' /\ Permutation (ungroup d') (ungroup d ++ l).
Proof.
  induction l as [|[k v] l IH]; intros d N F; cbn [fold_left fst snd].
  - rewrite app_nil_r. auto.
  - destruct (IH (group_add k v d)) as (N' & F' & P').
    + now apply group_add_NoDup.
    + now apply group_add_nonempty.
    + split; auto. split; auto. rewrite P', group_add_ungroup. apply Permutation_middle.
Qed.
Lemma group_by_spec {V} (l : list (option string * V)) :
  NoDup (map fst (group_by l)) /\ Forall (fun kv => snd kv <> []) (group_by l)
  /\ Permutation (ungroup (group_by l)) l.
Proof. destruct (group_fold l []) as (N & F & P); auto. constructor. Qed.

(** ** the body of a typed list *)
Definition typed_groups {V} (d : list (option string * list V)) : list (option string * list V) :=
  filter (fun kv => match fst kv with Some _ => true | None => false end) d.
Definition group_key {V} (kv : option string * list V) : string :=
  match fst kv with Some t => t | None => "" end.
Lemma ungroup_parts {V} (d : list (option string * list V)) : NoDup (map fst d) ->
  Permutation (ungroup (typed_groups d) ++ map (fun v => (None, v)) (group_get None d)) (ungroup d).
Proof.
  unfold group_get. induction d as [|[k vs] d IH]; simpl; auto. intros N. inversion N as [|? ? N1 N2]; subst.
  destruct k as [t|]; simpl.
  - rewrite <- app_assoc. apply Permutation_app_head. apply IH; auto.
  - specialize (IH N2). destruct (dict_get (option_eqb String.eqb) None d) as [ws|] eqn:G.
    + exfalso. apply N1. apply dict_get_In in G as (k' & Hi & E). apply okey_eqb_eq in E. subst k'.
      apply in_map_iff. exists (None, ws). auto.
    + cbn in IH. rewrite app_nil_r in IH. rewrite IH. apply Permutation_app_comm.
Qed.

(** what is printed: for each type the sorted items, "-" and the type; then the untyped ones *)
Section Body.
  Context {V : Type} (f : V -> string) (g : V -> list sexp).
  Definition group_sx (kv : option string * list V) : list sexp :=
    flat_map g (sorted_by f (snd kv)) ++ [dash; name_sx (group_key kv)].
  Definition typed_sx (d : list (option string * list V)) : list sexp :=
    flat_map group_sx (sort_by (fun a b => str_lt (group_key a) (group_key b)) (typed_groups d))
    ++ flat_map g (sorted_by f (group_get None d)).

  Lemma rx_items l : Forall (fun v => rx (f v) (g v)) l ->
    rx (join " " (sort_str (map f l))) (flat_map g (sorted_by f l)).
  Proof. intros F. rewrite sort_str_map. apply rx_join. now apply sorted_by_Forall. Qed.

  Lemma rx_group_text kv : (exists t, fst kv = Some t /\ legal_type t) ->
    Forall (fun v => rx (f v) (g v)) (snd kv) ->
    rx (show_group f kv) (group_sx kv) /\ fst (run QStart (show_group f kv)) = QStart.
  Proof.
    intros (t & K & L) F. destruct kv as [k vs]. cbn in K, F. subst k.
    unfold show_group, group_sx. cbn [fst snd group_key].
    assert (R : rx (join " " (sort_str (map f vs)) +++ " - " +++ t +++ " ")
                   (flat_map g (sorted_by f vs) ++ [dash; name_sx t])).
    { apply rx_app; [now apply rx_items| |reflexivity].
      apply (rx_pre " - " _ [dash] [name_sx t]); [rx_lit|reflexivity|].
      change [name_sx t] with ([name_sx t] ++ []).
      apply rx_app; [now apply rx_type| |reflexivity]. apply rx_space, rx_nil. }
    split; [exact R|].
    replace (join " " (sort_str (map f vs)) +++ " - " +++ t +++ " ")
      with ((join " " (sort_str (map f vs)) +++ " - " +++ t) +++ " ") by now rewrite !append_assoc.
    apply run_space_end. destruct R as [N _].
    replace (join " " (sort_str (map f vs)) +++ " - " +++ t +++ " ")
      with ((join " " (sort_str (map f vs)) +++ " - " +++ t) +++ " ") in N by now rewrite !append_assoc.
    now apply no_comment_app in N.
  Qed.

  (** the whole section, whose prefix is "(" and a keyword *)
  Lemma rx_typed_lists kw d : tx ("(" +++ kw) [LPAR; TKw kw] ->
    Forall (fun kv => match fst kv with Some t => legal_type t | None => True end
                      /\ Forall (fun v => rx (f v) (g v)) (snd kv)) d ->
    rx (print_typed_lists f ("(" +++ kw) d (")" +++ nl)) [section_sx kw (typed_sx d)].
  Proof.
    intros K F. unfold print_typed_lists, typed_sx.
    change (filter (fun kv : option string * list V => match fst kv with Some _ => true | None => false end) d)
      with (typed_groups d).
    set (sorted := sort_by (fun a b => str_lt (group_key a) (group_key b)) (typed_groups d)).
    repeat match goal with |- context [sort_by ?lt (typed_groups d)] =>
      change (sort_by lt (typed_groups d)) with sorted end.
    assert (FS : Forall (fun kv => rx (show_group f kv) (group_sx kv)
                                   /\ fst (run QStart (show_group f kv)) = QStart) sorted).
    { unfold sorted. eapply Permutation_Forall; [symmetry; apply sort_perm|].
      unfold typed_groups. apply Forall_forall. intros kv Hi. apply filter_In in Hi as [Hi T].
      rewrite Forall_forall in F. destruct (F kv Hi) as [F1 F2]. destruct (fst kv) as [t|] eqn:E; [|discriminate].
      apply rx_group_text; auto. exists t. auto. }
    assert (RC : rx (String.concat "" (map (show_group f) sorted)) (flat_map group_sx sorted))
      by now apply rx_concat.
    assert (FU : Forall (fun v => rx (f v) (g v)) (group_get None d)).
    { unfold group_get. destruct (dict_get (option_eqb String.eqb) None d) as [vs|] eqn:G; auto.
      apply dict_get_In in G as (k' & Hi & _). rewrite Forall_forall in F. apply (F _ Hi). }
    assert (FIN : forall s body, tx s ([LPAR; TKw kw] ++ flat_map flat body) -> Forall sx_ok body ->
      rx (s +++ ")" +++ nl) [section_sx kw body]).
    { intros s body T B. apply tx_rx.
      - cbn [flat_map]. rewrite app_nil_r. unfold section_sx. cbn [flat flat_map].
        replace (LPAR :: ([TKw kw] ++ flat_map flat body) ++ [RPAR])
          with (([LPAR; TKw kw] ++ flat_map flat body) ++ [RPAR]) by reflexivity.
        apply tx_app; auto; [|reflexivity]. split; [cbn; auto|reflexivity].
      - constructor; [|constructor]. constructor. constructor; auto. constructor; discriminate. }
    assert (BODY : forall x l, rx x l ->
      tx ((("(" +++ kw) +++ " " +++ x)) ([LPAR; TKw kw] ++ flat_map flat l)).
    { intros x l R. apply tx_app; auto; [|reflexivity]. apply (tx_white " "); [cbn; auto|]. now apply rx_tx. }
    destruct (group_get None d) as [|u us] eqn:U.
    - apply FIN.
      + apply tx_strip. cbn [sorted_by sort_by flat_map]. rewrite app_nil_r. now apply BODY.
      + cbn [sorted_by sort_by flat_map]. rewrite app_nil_r. apply RC.
    - rewrite <- U in *.
      assert (RB : rx (String.concat "" (map (show_group f) sorted)
                       +++ join " " (sort_str (map f (group_get None d))))
                      (flat_map group_sx sorted ++ flat_map g (sorted_by f (group_get None d)))).
      { apply rx_pre; auto; [|now apply rx_items].
        clear - FS. induction FS as [|kv l [H1 H2] FS IH]; [reflexivity|].
        cbn [map]. rewrite concat_cons, run_app. cbn [fst]. now rewrite H2. }
      assert (T : tx (((("(" +++ kw) +++ " " +++ String.concat "" (map (show_group f) sorted))
                       +++ join " " (sort_str (map f (group_get None d)))))
                  ([LPAR; TKw kw] ++ flat_map flat (flat_map group_sx sorted
                     ++ flat_map g (sorted_by f (group_get None d))))).
      { rewrite !append_assoc. rewrite <- (append_assoc "(" kw). now apply BODY. }
      destruct (String.eqb _ _) eqn:Q.
      + apply String.eqb_eq in Q. rewrite Q in T. apply FIN; [|apply RB].
        destruct K as [K1 K2]. destruct T as [_ T]. split; auto. rewrite <- T.
        rewrite (lex_cut ("(" +++ kw) " "); [|auto|reflexivity]. rewrite (lex_all_space " ") by (cbn; auto).
        now rewrite app_nil_r.
      + apply FIN; [exact T|apply RB].
  Qed.
End Body.

(** ** constants *)
Definition const_sx (n : string) : list sexp := [name_sx n].
Lemma flat_map_const_sx l : flat_map const_sx l = map name_sx l.
Proof. apply flat_map_single. Qed.

Lemma written_typed d : Forall (fun kv => snd kv <> []) d -> (forall kv n, In kv d -> In n (snd kv) -> n <> "object") ->
  written_names (typed_sx (fun n => n) const_sx d)
    (map (fun kv => (sorted_by (fun n => n) (snd kv), [group_key kv]))
         (sort_by (fun a b => str_lt (group_key a) (group_key b)) (typed_groups d)))
    (sorted_by (fun n => n) (group_get None d)).
Proof.
  intros F NO. unfold typed_sx. rewrite flat_map_const_sx.
  assert (NT : forall n, In n (sorted_by (fun n => n) (group_get None d)) -> n <> "object").
  { intros n H. eapply Permutation_in in H; [|apply sorted_by_perm]. unfold group_get in H. destruct (dict_get _ None d) as [l|] eqn:E; [|destruct H].
    apply dict_get_In in E as (k & E & _). exact (NO (k, l) n E H). }
  assert (NG : forall kv n, In kv (sort_by (fun a b : option string * list string => str_lt (group_key a) (group_key b)) (typed_groups d)) -> In n (snd kv) -> n <> "object").
  { intros kv n H K. eapply Permutation_in in H; [|apply sort_perm]. unfold typed_groups in H. apply filter_In in H as [H _]. eauto. }
  assert (G : Forall (fun kv => snd kv <> [])
                (sort_by (fun a b : option string * list string => str_lt (group_key a) (group_key b))
                         (typed_groups d))).
  { eapply Permutation_Forall; [symmetry; apply sort_perm|]. unfold typed_groups.
    apply Forall_forall. intros x Hx. apply filter_In in Hx as [Hx _]. rewrite Forall_forall in F. auto. }
  induction G as [|kv l N G IH]; cbn [map flat_map app]; [apply wn_tail|].
  unfold group_sx at 1. rewrite flat_map_const_sx, <- !app_assoc. apply wn_group_legal; [| |apply IH; intros; eapply NG; eauto; now right].
  2:{ intros n H. apply in_app_or in H as [H|H]; [|auto]. apply in_flat_map in H as ((is & gs) & H & K). apply in_map_iff in H as (kv' & E & H). inversion E; subst. cbn [fst] in K.
      eapply Permutation_in in K; [|apply sorted_by_perm]. eapply NG; [right; exact H|exact K]. }
  intros C. apply N. assert (P : Permutation (sorted_by (fun n : string => n) (snd kv)) (snd kv)) by apply sorted_by_perm.
  rewrite C in P. now apply Permutation_nil in P.
Qed.
Lemma assigned_typed d : NoDup (map fst d) ->
  Permutation (map (fun kv => (fst kv, hd_error (snd kv)))
    (assigned (map (fun kv => (sorted_by (fun n => n) (snd kv), [group_key kv]))
                   (sort_by (fun a b => str_lt (group_key a) (group_key b)) (typed_groups d)))
              (sorted_by (fun n => n) (group_get None d))))
    (map (fun kv : option string * string => (snd kv, fst kv)) (ungroup d)).
Proof.
  intros N. etransitivity; [|apply Permutation_map, ungroup_parts, N].
  unfold assigned. rewrite !map_app, !map_map. cbn [fst snd hd_error]. apply Permutation_app.
  - set (h := fun kv : option string * list string =>
                map (fun a : string => (a, fst kv)) (sorted_by (fun n => n) (snd kv))).
    transitivity (flat_map h (sort_by (fun a b => str_lt (group_key a) (group_key b)) (typed_groups d))).
    + assert (T : Forall (fun kv : option string * list string => fst kv = Some (group_key kv))
               (sort_by (fun a b => str_lt (group_key a) (group_key b)) (typed_groups d))).
      { eapply Permutation_Forall; [symmetry; apply sort_perm|]. unfold typed_groups.
        apply Forall_forall. intros x Hx. apply filter_In in Hx as [_ Hx]. unfold group_key.
        destruct (fst x); congruence. }
      induction T as [|kv l E T IH]; cbn [map flat_map]; auto.
      rewrite map_app, map_map. cbn [fst snd]. apply Permutation_app; auto. unfold h. rewrite E. reflexivity.
    + rewrite (Permutation_flat_map h (sort_perm _ (typed_groups d))).
      unfold ungroup. clear. induction (typed_groups d) as [|kv l IH]; cbn [map flat_map]; auto.
      rewrite map_app, map_map. apply Permutation_app; auto. unfold h. cbn [fst snd].
      apply Permutation_map, sorted_by_perm.
  - apply Permutation_map, sorted_by_perm.
Qed.

Definition const_ok (c : const) : Prop :=
  legal_name (fst c) /\ match snd c with Some t => legal_type t | None => True end.
Definition constant_groups (cs : list const) := group_by (map (fun c : const => (snd c, fst c)) cs).
Lemma constant_groups_In cs k vs v : In (k, vs) (constant_groups cs) -> In v vs -> In (v, k) cs.
Proof.
  intros Hi Hv. destruct (group_by_spec (map (fun c : const => (snd c, fst c)) cs)) as (_ & _ & P).
  assert (In (k, v) (ungroup (constant_groups cs))).
  { unfold ungroup. apply in_flat_map. exists (k, vs). split; auto. apply in_map_iff. eauto. }
  apply (Permutation_in _ P) in H. apply in_map_iff in H as ([n g] & E & Hc). cbn in E. now inversion E; subst.
Qed.
Lemma rx_constants kw cs : tx ("(" +++ kw) [LPAR; TKw kw] -> cs <> [] -> Forall const_ok cs ->
  rx (print_constants ("(" +++ kw) cs)
     [section_sx kw (typed_sx (fun n => n) const_sx (constant_groups cs))].
Proof.
  intros K N F. unfold print_constants. destruct cs as [|c0 cs0] eqn:E; [contradiction|]. rewrite <- E in *.
  apply rx_typed_lists; auto. apply Forall_forall. intros [k vs] Hi. cbn [fst snd].
  rewrite Forall_forall in F.
  destruct (group_by_spec (map (fun c : const => (snd c, fst c)) cs)) as (_ & NE & _).
  rewrite Forall_forall in NE. specialize (NE _ Hi). cbn in NE.
  assert (H : forall v, In v vs -> const_ok (v, k)) by (intros v Hv; apply F; eapply constant_groups_In; eauto).
  split.
  - destruct vs as [|v vs]; [contradiction|]. destruct (H v (or_introl eq_refl)) as [_ H2]. exact H2.
  - apply Forall_forall. intros v Hv. apply rx_name. apply H in Hv. apply Hv.
Qed.
Lemma legal_not_object n : legal_name n -> n <> "object".
Proof. intros H ->. apply parse_name_Ok in H. discriminate H. Qed.
Lemma constant_groups_object cs : Forall const_ok cs -> forall kv n, In kv (constant_groups cs) -> In n (snd kv) -> n <> "object".
Proof.
  intros F [k vs] n H K. pose proof (constant_groups_In cs k vs n H K) as Z. rewrite Forall_forall in F. destruct (F _ Z) as [A _]. now apply legal_not_object.
Qed.
Lemma parse_constants cs : NoDup (map fst cs) -> Forall const_ok cs ->
  exists d, typed_list_name (typed_sx (fun n => n) const_sx (constant_groups cs)) = Ok d
    /\ Permutation d cs.
Proof.
  intros N F.
  destruct (group_by_spec (map (fun c : const => (snd c, fst c)) cs)) as (NK & NE & P).
  fold (constant_groups cs) in *.
  pose proof (assigned_typed (constant_groups cs) NK) as A.
  set (as_ := assigned _ _) in A.
  assert (PC : Permutation (map (fun kv => (fst kv, hd_error (snd kv))) as_) cs).
  { rewrite A. rewrite (Permutation_map _ P). rewrite map_map. cbn [fst snd].
    rewrite <- (map_id cs) at 2. apply Permutation_refl'. apply map_ext. now intros []. }
  eexists. split; [|exact PC].
  apply (typed_list_name_Ok _ _ _ _ (written_typed _ NE (constant_groups_object cs F))). split; [reflexivity|].
  assert (L1 : Forall (fun kv : string * list string => exists g, In (fst kv, g) cs
                /\ snd kv = match g with Some t => [t] | None => [] end) as_).
  { apply Forall_forall. intros [a gs] Hi. cbn [fst snd].
    assert (Hc : In (a, hd_error gs) cs).
    { apply (Permutation_in _ PC). apply in_map_iff. exists (a, gs). auto. }
    exists (hd_error gs). split; auto. unfold as_, assigned in Hi. apply in_app_or in Hi as [Hi|Hi].
    - apply in_flat_map in Hi as ((items & ts) & H1 & H2). apply in_map_iff in H1 as (kv & E & _).
      inversion E; subst. cbn [fst snd] in H2. apply in_map_iff in H2 as (x & E2 & _). now inversion E2; subst.
    - apply in_map_iff in Hi as (x & E2 & _). now inversion E2; subst. }
  split.
  - intros a gs Hi. rewrite Forall_forall in L1, F. destruct (L1 _ Hi) as (g & H1 & H2). cbn [fst snd] in *.
    destruct (F _ H1) as [G1 G2]. split; auto. subst gs. cbn in G2. destruct g; auto.
  - assert (E : map fst as_ = map fst (map (fun kv : string * list string => (fst kv, hd_error (snd kv))) as_)).
    { rewrite map_map. apply map_ext. now intros []. }
    fold as_. rewrite E. eapply Permutation_NoDup; [|exact N]. symmetry. now apply Permutation_map.
Qed.
Lemma constants_by_name_id d : NoDup (map fst d) -> Forall const_ok d ->
  constants_by_name d = Ok (map (fun c => (fst c, c)) d).
Proof.
  intros N F. unfold constants_by_name.
  assert (E : mapR (fun p : string * option string => let* k := mk_const (fst p) (snd p) in Ok (fst p, const_of k)) d
              = Ok (map (fun c => (fst c, c)) d)).
  { apply mapR_Ok. clear N. induction F as [|[n g] d [H1 H2] F IH]; cbn [map]; constructor; auto.
    cbn [fst snd] in *. rewrite (proj2 (mk_const_Ok n g (TConst n g))); auto. }
  rewrite E. cbn [bind]. f_equal. apply dict_of_list_id; [apply string_eqb_equiv|].
  apply NoDupE_string. rewrite map_map. exact N.
Qed.
