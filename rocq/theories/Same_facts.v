(** Facts for C29: equal objects have the same text. *)
From Coq Require Import String Ascii List Bool Arith ZArith NArith QArith Lia Permutation.
From Verif Require Import Py Names Reqs Logic Built Validation Core Show.
From Verif Require Import Spec_Core Spec_Print Spec_Same.
From Verif Require Import Py_facts Logic_facts Names_facts Order_facts CoreEq_facts NumShow_facts ShowSame_facts Print_facts Types_facts
  ProblemText_facts.
Import ListNotations.
Open Scope string_scope.
Open Scope list_scope.

(** ** variables *)
Lemma single_tags (l m : list string) : (length l <= 1)%nat -> (length m <= 1)%nat ->
  set_eqb String.eqb l m = true -> l = m.
Proof.
  intros L M E. assert (E2 := proj1 (set_eqb_string l m) E); clear E; rename E2 into E.
  destruct l as [|x [|x' l]], m as [|y [|y' m]]; cbn in L, M; try lia; auto.
  - destruct (proj2 (E y)); cbn; auto.
  - destruct (proj1 (E x)); cbn; auto.
  - destruct (proj1 (E x)) as [->|[]]; cbn; auto.
Qed.
Lemma single_var v w : one_type v -> one_type w -> var_eqb v w = true -> v = w.
Proof.
  destruct v as [n ts], w as [m us]. unfold one_type, var_eqb. cbn [v_tags v_name]. intros L M E.
  apply andb_true_iff in E as [E1 E2]. apply String.eqb_eq in E1. subst m. f_equal. now apply single_tags.
Qed.
Lemma single_block vs ws : single vs -> single ws -> set_eqb var_eqb vs ws = true -> vs = ws.
Proof.
  intros [L F] [M G] E. unfold set_eqb, subset, memb in E.
  destruct vs as [|v [|v' vs]], ws as [|w [|w' ws]]; cbn in L, M; try lia; auto; try discriminate E.
  cbn in E. f_equal. apply single_var; [now inversion F|now inversion G|].
  destruct (var_eqb v w); auto.
Qed.

(** ** formulas *)
Lemma fold_settled ops : fold_right (fun g p => settled g /\ p) True ops -> Forall settled ops.
Proof. induction ops as [|x ops IH]; simpl; constructor; tauto. Qed.
Lemma same_numbers_app_l xs xs' ys ys' : same_numbers (xs ++ xs') (ys ++ ys') -> same_numbers xs ys.
Proof. intros H x y X Y. apply H; apply in_or_app; auto. Qed.
Lemma same_numbers_app_r xs xs' ys ys' : same_numbers (xs ++ xs') (ys ++ ys') -> same_numbers xs' ys'.
Proof. intros H x y X Y. apply H; apply in_or_app; auto. Qed.
Definition text_of (f : form) : Prop := forall g, settled f -> settled g ->
  same_numbers (numbers f) (numbers g) -> form_eqb f g = true -> show_form f = show_form g.
Lemma show_ops_same ops : Forall text_of ops -> forall ops', Forall settled ops -> Forall settled ops' ->
  same_numbers (flat_map numbers ops) (flat_map numbers ops') -> list_eqb form_eqb ops ops' = true ->
  map show_form ops = map show_form ops'.
Proof.
  induction 1 as [|f ops H F IH]; intros [|g ops'] S1 S2 N E; simpl in *; try discriminate; auto.
  inversion S1; inversion S2; subst. apply andb_true_iff in E as [E1 E2]. f_equal.
  - apply H; auto. eapply same_numbers_app_l, N.
  - apply IH; auto. eapply same_numbers_app_r, N.
Qed.
Lemma show_form_same f : text_of f.
Proof.
  induction f using form_ind'; intros g S1 S2 N E; destruct g; simpl in E; try discriminate;
    cbn [settled numbers] in *; cbn [show_form].
  - now apply show_atom_same.
  - apply andb_true_iff in E as [E1 E2]. now rewrite (show_term_same _ _ E1), (show_term_same _ _ E2).
  - now apply show_atom_same.
  - apply show_num_same; auto. apply N; cbn; auto.
  - apply andb_true_iff in E as [E1 E2]. apply bfun_eqb_eq in E1. subst.
    erewrite show_ops_same; eauto using fold_settled.
  - apply andb_true_iff in E as [E1 E2]. apply bop_eqb_eq in E1. subst.
    erewrite show_ops_same; eauto using fold_settled.
  - now rewrite (IHf g).
  - apply andb_true_iff in E as [E E2]. apply andb_true_iff in E as [E1 E3].
    destruct S1, S2. rewrite (IHf g) by auto. apply single_block in E3; auto. subst.
    destruct q, q0; try discriminate E1; auto.
  - apply andb_true_iff in E as [E1 E2]. destruct S1, S2.
    rewrite (IHf1 g1), (IHf2 g2); eauto using same_numbers_app_l, same_numbers_app_r.
  - apply andb_true_iff in E as [E3 E2]. destruct S1, S2. rewrite (IHf g) by auto. apply single_block in E3; auto. now subst.
Qed.

(** ** sets *)
(** texts of the members of equal sets *)
Lemma set_texts {A} (eqb : A -> A -> bool) (f g : A -> string) l m : is_equiv eqb -> NoDupE eqb l -> NoDupE eqb m ->
  set_eqb eqb l m = true -> (forall x y, In x l -> In y m -> eqb x y = true -> f x = g y) ->
  Permutation (map f l) (map g m).
Proof.
  intros Q NL NM E H. destruct (NoDupE_set_eqb_perm eqb Q l m NL NM E) as (m' & P & F).
  transitivity (map g m'); [|now apply Permutation_map, Permutation_sym].
  assert (HM : forall x y, In x l -> In y m' -> eqb x y = true -> f x = g y).
  { intros x y X Y. apply H; auto. eapply Permutation_in; [symmetry; exact P|exact Y]. }
  clear - F HM. replace (map f l) with (map g m'); [reflexivity|].
  induction F as [|x y l m X F IH]; auto. cbn. f_equal.
  - symmetry. apply HM; cbn; auto.
  - apply IH. intros. apply HM; cbn; auto.
Qed.
Definition pair_eqb {K V} (eqb : K -> K -> bool) (veqb : V -> V -> bool) (a b : K * V) : bool :=
  eqb (fst a) (fst b) && veqb (snd a) (snd b).
Lemma pair_equiv {K V} (eqb : K -> K -> bool) (veqb : V -> V -> bool) : is_equiv eqb -> is_equiv veqb ->
  is_equiv (pair_eqb eqb veqb).
Proof. exact (lexe_equiv eqb veqb). Qed.
Lemma NoDupE_pairs {K V} (eqb : K -> K -> bool) (veqb : V -> V -> bool) d :
  NoDupE eqb (map fst d) -> NoDupE (pair_eqb eqb veqb) d.
Proof.
  induction d as [|x d IH]; cbn; intros N; constructor; inversion N as [|? ? N1 N2]; subst; auto.
  apply not_true_is_false. intros M. unfold memb in M. apply existsb_exists in M as (y & Y & E).
  apply andb_true_iff in E as [E _]. apply not_true_iff_false in N1. apply N1. unfold memb. apply existsb_exists.
  exists (fst y). split; auto. now apply in_map.
Qed.
Lemma dict_subset {K V} (eqb : K -> K -> bool) (veqb : V -> V -> bool) d1 d2 : is_equiv eqb ->
  dict_eqb eqb veqb d1 d2 = true -> subset (pair_eqb eqb veqb) d1 d2 = true.
Proof.
  intros Q E. unfold dict_eqb in E. apply andb_true_iff in E as [_ E]. rewrite forallb_forall in E.
  apply subset_In. intros x X. specialize (E x X). destruct (dict_get eqb (fst x) d2) as [v|] eqn:G; [|discriminate].
  apply dict_get_In in G as (k & Hi & EK). unfold memb. apply existsb_exists. exists (k, v). split; auto.
  unfold pair_eqb. cbn. now rewrite EK, E.
Qed.
Lemma dict_set {K V} (eqb : K -> K -> bool) (veqb : V -> V -> bool) d1 d2 : is_equiv eqb -> is_equiv veqb ->
  NoDupE eqb (map fst d1) -> NoDupE eqb (map fst d2) -> dict_eqb eqb veqb d1 d2 = true ->
  set_eqb (pair_eqb eqb veqb) d1 d2 = true.
Proof.
  intros Q QV N1 N2 E. unfold set_eqb. apply andb_true_iff. split.
  - now apply dict_subset.
  - apply dict_subset; auto. apply dict_eqb_sym; auto.
Qed.

(** ** sorted sections *)
Lemma sorted_collection pre l m post b : Permutation l m ->
  sort_and_print_collection pre l post b = sort_and_print_collection pre m post b.
Proof.
  intros P. unfold sort_and_print_collection. rewrite (sort_str_unique _ _ P).
  destruct l, m; auto; [apply Permutation_nil in P; discriminate|symmetry in P; apply Permutation_nil in P; discriminate].
Qed.
(** groups *)
Definition same_groups {V} (s s' : list (option string * list V)) : Prop :=
  forall k, Permutation (group_get k s) (group_get k s').
Lemma group_get_add {V} k k' (v : V) d :
  group_get k (group_add k' v d) = if option_eqb String.eqb k k' then group_get k d ++ [v] else group_get k d.
Proof.
  unfold group_get. induction d as [|[k2 vs] d IH]; cbn.
  - destruct (option_eqb String.eqb k k'); auto.
  - destruct (option_eqb String.eqb k' k2) eqn:E2; cbn.
    + apply okey_eqb_eq in E2. subst k2. destruct (option_eqb String.eqb k k'); auto.
    + destruct (option_eqb String.eqb k k2) eqn:E3.
      * destruct (option_eqb String.eqb k k') eqn:E4; auto. apply okey_eqb_eq in E3, E4. subst k2 k'.
        rewrite (proj2 (okey_eqb_eq k k) eq_refl) in E2. discriminate.
      * apply IH.
Qed.
Lemma group_get_by {V} k (l : list (option string * V)) :
  group_get k (group_by l) = map snd (filter (fun kv => option_eqb String.eqb k (fst kv)) l).
Proof.
  unfold group_by. transitivity (group_get k ([] : list (option string * list V))
    ++ map snd (filter (fun kv => option_eqb String.eqb k (fst kv)) l)); [|reflexivity].
  generalize ([] : list (option string * list V)). induction l as [|[k' v] l IH]; intros d; cbn [fold_left filter map fst snd].
  - now rewrite app_nil_r.
  - rewrite IH, group_get_add. destruct (option_eqb String.eqb k k'); auto. cbn. now rewrite <- app_assoc.
Qed.
Lemma filter_perm {A} (f : A -> bool) l m : Permutation l m -> Permutation (filter f l) (filter f m).
Proof.
  induction 1; cbn; auto.
  - destruct (f x); auto.
  - destruct (f x), (f y); auto. constructor.
  - etransitivity; eauto.
Qed.
Lemma group_by_perm {V} (l m : list (option string * V)) : Permutation l m -> same_groups (group_by l) (group_by m).
Proof. intros P k. rewrite !group_get_by. apply Permutation_map. now apply filter_perm. Qed.
Lemma group_keys_perm {V} (l m : list (option string * V)) : Permutation l m ->
  Permutation (map fst (group_by l)) (map fst (group_by m)).
Proof.
  intros P. destruct (group_by_spec l) as (N1 & E1 & U1), (group_by_spec m) as (N2 & E2 & U2).
  apply NoDup_Permutation; auto.
  assert (G : forall (d : list (option string * list V)) k, Forall (fun kv => snd kv <> []) d ->
    (In k (map fst d) <-> In k (map fst (ungroup d)))).
  { clear. intros d k F. unfold ungroup. induction F as [|[k' vs] d X F IH]; cbn; [tauto|].
    rewrite map_app, in_app_iff, <- IH, map_map. cbn [fst]. cbn in X. destruct vs as [|v vs]; [contradiction|].
    cbn.
    assert (M : In k (map (fun _ => k') vs) -> k' = k) by (intros M; apply in_map_iff in M as (x & M & _); exact M). tauto. }
  intros k. rewrite (G _ _ E1), (G _ _ E2). split; apply Permutation_in, Permutation_map.
  - now rewrite U1, U2.
  - now rewrite U1, U2.
Qed.
(** a group is determined by its key *)
Lemma group_entry {V} (d : list (option string * list V)) k vs : NoDup (map fst d) -> In (k, vs) d -> group_get k d = vs.
Proof.
  unfold group_get. intros N. induction d as [|[k' ws] d IH]; cbn; [tauto|]. inversion N as [|? ? N1 N2]; subst.
  intros [E|H].
  - inversion E; subst. now rewrite (proj2 (okey_eqb_eq k k) eq_refl).
  - destruct (option_eqb String.eqb k k') eqn:E; auto. apply okey_eqb_eq in E. subst k'. exfalso. apply N1.
    apply in_map_iff. now exists (k, vs).
Qed.

(** ** typed lists *)
Definition line_of {V} (to_string : V -> string) (s : list (option string * list V)) (k : string) : string :=
  show_group to_string (Some k, group_get (Some k) s).
Lemma typed_lines {V} (to_string : V -> string) (s : list (option string * list V)) : NoDup (map fst s) ->
  map (show_group to_string) (sort_by (fun a b => str_lt (group_key a) (group_key b)) (typed_groups s))
  = map (line_of to_string s) (sort_str (some_keys s)).
Proof.
  intros N.
  assert (K : some_keys s = map group_key (typed_groups s)).
  { clear. unfold some_keys, typed_groups. induction s as [|[[k|] vs] s IH]; cbn; auto. f_equal. exact IH. }
  rewrite K, (sort_str_map group_key). fold (sorted_by (@group_key V) (typed_groups s)). rewrite map_map.
  apply map_ext_in. intros [k vs] H.
  apply (Permutation_in _ (sorted_by_perm _ _)) in H. unfold typed_groups in H. apply filter_In in H as [H T].
  cbn in T. destruct k as [k|]; [|discriminate]. unfold line_of, group_key. cbn [fst].
  now rewrite (group_entry _ _ _ N H).
Qed.
Lemma typed_lists_same {V W} (f : V -> string) (g : W -> string) pre post (l : list (option string * V))
    (m : list (option string * W)) :
  Permutation (map (fun kv => (fst kv, f (snd kv))) l) (map (fun kv => (fst kv, g (snd kv))) m) ->
  print_typed_lists f pre (group_by l) post = print_typed_lists g pre (group_by m) post.
Proof.
  intros P.
  assert (KP : forall X (h : X -> string) (x : list (option string * X)),
    map fst (group_by (map (fun kv => (fst kv, h (snd kv))) x)) = map fst (group_by x)
    /\ forall k, map h (group_get k (group_by x)) = group_get k (group_by (map (fun kv => (fst kv, h (snd kv))) x))).
  { clear. intros X h x. split.
    - unfold group_by. assert (G : forall d d', map fst d' = map fst d ->
        map fst (fold_left (fun d kv => group_add (fst kv) (snd kv) d) (map (fun kv => (fst kv, h (snd kv))) x) d')
        = map fst (fold_left (fun d kv => group_add (fst kv) (snd kv) d) x d)).
      { induction x as [|[k v] x IH]; intros d d' E; cbn [map fold_left fst snd]; auto. apply IH.
        now rewrite !group_add_keys, E. }
      now apply G.
    - intros k. rewrite !group_get_by. induction x as [|[k' v] x IH]; cbn; auto.
      destruct (option_eqb String.eqb k k'); cbn; [f_equal|]; auto. }
  assert (G : forall k, sort_str (map f (group_get k (group_by l))) = sort_str (map g (group_get k (group_by m)))).
  { intros k. apply sort_str_unique. rewrite (proj2 (KP _ f l)), (proj2 (KP _ g m)). now apply group_by_perm. }
  assert (K : sort_str (some_keys (group_by l)) = sort_str (some_keys (group_by m))).
  { apply sort_str_unique. assert (E : forall X (d : list (option string * X)), some_keys d
      = flat_map (fun k => match k with Some k => [k] | None => [] end) (map fst d)).
    { clear. intros X d. unfold some_keys. induction d as [|x d IH]; cbn; auto. now rewrite IH. }
    rewrite !E. apply Permutation_flat_map. rewrite <- (proj1 (KP _ f l)), <- (proj1 (KP _ g m)). now apply group_keys_perm. }
  unfold print_typed_lists.
  change (filter (fun kv : option string * list V => match fst kv with Some _ => true | None => false end) (group_by l))
    with (typed_groups (group_by l)).
  change (filter (fun kv : option string * list W => match fst kv with Some _ => true | None => false end) (group_by m))
    with (typed_groups (group_by m)).
  pose proof (typed_lines f (group_by l) (proj1 (group_by_spec l))) as TL.
  pose proof (typed_lines g (group_by m) (proj1 (group_by_spec m))) as TM.
  unfold group_key in TL, TM. rewrite TL, TM, K.
  assert (LN : map (line_of f (group_by l)) (sort_str (some_keys (group_by m)))
             = map (line_of g (group_by m)) (sort_str (some_keys (group_by m)))).
  { apply map_ext. intros k. unfold line_of, show_group. cbn [fst snd]. now rewrite G. }
  rewrite LN, (G None).
  assert (NE : length (group_get None (group_by l)) = length (group_get None (group_by m))).
  { rewrite <- (map_length f), <- (map_length g), (proj2 (KP _ f l)), (proj2 (KP _ g m)).
    apply Permutation_length. now apply group_by_perm. }
  destruct (group_get None (group_by l)), (group_get None (group_by m)); try discriminate NE; reflexivity.
Qed.
Lemma constants_same pre l m : Permutation l m -> print_constants pre l = print_constants pre m.
Proof.
  intros P. unfold print_constants. destruct l as [|x l], m as [|y m]; auto.
  - apply Permutation_nil in P. discriminate.
  - symmetry in P. apply Permutation_nil in P. discriminate.
  - apply typed_lists_same. now apply Permutation_map, Permutation_map.
Qed.

(** ** types *)
Lemma types_perm (a b : types_dict) : NoDup (map fst a) -> NoDup (map fst b) -> types_eqb a b = true -> Permutation a b.
Proof.
  intros N1 N2 E. apply NoDupE_string in N1, N2. unfold types_eqb in E.
  pose proof (dict_set _ _ a b string_eqb_equiv opt_str_equiv N1 N2 E) as S1.
  destruct (NoDupE_set_eqb_perm _ (pair_equiv _ _ string_eqb_equiv opt_str_equiv) a b) as (b' & P & F); auto using NoDupE_pairs.
  replace a with b'; [now symmetry|]. clear - F. induction F as [|[x o] [y o'] l m X F IH]; auto. f_equal; auto.
  unfold pair_eqb in X. cbn in X. apply andb_true_iff in X as [X Y]. apply String.eqb_eq in X. apply okey_eqb_eq in Y. now subst.
Qed.
Lemma find_ext' {A} (f g : A -> bool) l : (forall x, f x = g x) -> find f l = find g l.
Proof. intros H. induction l as [|x l IH]; cbn; auto. now rewrite H, IH. Qed.
Lemma remaining_same s s' : same_groups s s' -> forall fuel r, print_remaining fuel s r = print_remaining fuel s' r.
Proof.
  intros G. induction fuel as [|fuel IH]; intros r; cbn [print_remaining]; destruct r as [|x r]; auto.
  set (rem := x :: r) in *.
  assert (M : forall k, memb String.eqb k (flat_map (fun k => group_get (Some k) s) rem)
                      = memb String.eqb k (flat_map (fun k => group_get (Some k) s') rem)).
  { intros k. apply memb_perm. induction rem as [|y l IHl]; cbn; auto. apply Permutation_app; auto. }
  assert (FN : find (fun k => negb (memb String.eqb k (flat_map (fun k => group_get (Some k) s) rem))) rem
             = find (fun k => negb (memb String.eqb k (flat_map (fun k => group_get (Some k) s') rem))) rem).
  { apply find_ext'. intros k. now rewrite M. }
  rewrite FN. clear FN. destruct (find _ rem) as [p|]; auto. rewrite IH, (sort_str_unique _ _ (G (Some p))). reflexivity.
Qed.
Lemma types_same a b : Permutation a b -> print_types_with_parents a = print_types_with_parents b.
Proof.
  intros P. unfold print_types_with_parents. destruct a as [|x a], b as [|y b]; auto.
  - apply Permutation_nil in P. discriminate.
  - symmetry in P. apply Permutation_nil in P. discriminate.
  - change (group_by (map (fun kv => (snd kv, fst kv)) (x :: a))) with (subtypes_of (x :: a)).
    change (group_by (map (fun kv => (snd kv, fst kv)) (y :: b))) with (subtypes_of (y :: b)).
    set (a' := x :: a) in *. set (b' := y :: b) in *. clearbody a' b'. unfold print_types.
    assert (S1 : sort_str (no_parents (subtypes_of a')) = sort_str (no_parents (subtypes_of b'))).
    { apply sort_str_unique, NoDup_Permutation; [apply no_parents_nodup..|]. intros z. rewrite !no_parents_In.
      assert (I : forall kv, In kv a' <-> In kv b') by (intros; split; apply Permutation_in; [exact P|now symmetry]).
      assert (I2 : In z (map fst a') <-> In z (map fst b')).
      { split; apply Permutation_in, Permutation_map; [exact P|now symmetry]. }
      rewrite I2, !I. assert (I3 : (exists t, In (t, Some z) a') <-> (exists t, In (t, Some z) b')).
      { split; intros (t & T); exists t; now apply I. }
      rewrite I3. tauto. }
    assert (S2 : sort_str (filter (fun k => negb (String.eqb k "object")) (some_keys (subtypes_of a')))
               = sort_str (filter (fun k => negb (String.eqb k "object")) (some_keys (subtypes_of b')))).
    { apply sort_str_unique, filter_perm, NoDup_Permutation.
      - apply some_keys_nodup, group_by_spec.
      - apply some_keys_nodup, group_by_spec.
      - intros k. rewrite !subtypes_keys. split; intros (t & T); exists t; [apply (Permutation_in _ P T)|apply (Permutation_in _ (Permutation_sym P) T)]. }
    rewrite S1, S2, (remaining_same (subtypes_of a') (subtypes_of b')); auto.
    apply group_by_perm. now apply Permutation_map.
Qed.

(** ** predicates *)
(** the same declaration with sorted types *)
Definition canon_term (t : term) : term :=
  match t with TConst n g => TConst n g | TVar v => TVar (mkVar (v_name v) (sort_str (v_tags v))) end.
Definition canon (p : atom) : atom := (fst p, map canon_term (snd p)).
Lemma sort_str_idem l : sort_str (sort_str l) = sort_str l.
Proof. apply sort_str_unique, sort_str_perm. Qed.
Lemma canon_name t : t_name (canon_term t) = t_name t.
Proof. now destruct t. Qed.
Lemma canon_tags t : sort_str (t_tags (canon_term t)) = sort_str (t_tags t).
Proof. destruct t as [n g|v]; cbn; auto. apply sort_str_idem. Qed.
Lemma canon_same ts us : Forall some_var ts -> Forall some_var us -> list_eqb term_eqb ts us = true ->
  map canon_term ts = map canon_term us.
Proof.
  intros F. revert us. induction F as [|t ts (v & -> & N) F IH]; intros [|u us] G E; cbn in E; try discriminate; auto.
  inversion G as [|? ? (w & -> & M) G']; subst. apply andb_true_iff in E as [E1 E2]. cbn. f_equal; auto.
  cbn in E1. unfold var_eqb in E1. apply andb_true_iff in E1 as [E1 E3]. apply String.eqb_eq in E1.
  apply (sort_str_set _ _ N M) in E3. now rewrite E1, E3.
Qed.
Lemma show_decl_canon p : show_pred_decl (canon p) = show_pred_decl p.
Proof.
  destruct p as [n ts].
  assert (A : map show_pred_arg (map canon_term ts) = map show_pred_arg ts).
  { rewrite map_map. apply map_ext. intros u. unfold show_pred_arg. now rewrite canon_name, canon_tags. }
  unfold show_pred_decl, canon. cbn [fst snd]. destruct ts as [|t ts]; auto. cbn [map] in *. now rewrite A.
Qed.
Lemma skeleton_canon p : function_skeleton (canon p) = function_skeleton p.
Proof.
  destruct p as [n ts].
  assert (A : map show_skeleton_arg (map canon_term ts) = map show_skeleton_arg ts).
  { rewrite map_map. apply map_ext. intros u. unfold show_skeleton_arg. now rewrite canon_name, canon_tags. }
  unfold function_skeleton, canon. cbn [fst snd]. destruct ts as [|t ts]; auto. cbn [map] in *. now rewrite A.
Qed.
Lemma canon_some_var t : some_var t -> tags_set (canon_term t) /\ exists v, canon_term t = TVar v.
Proof.
  intros (v & -> & N). split; [|now eexists]. unfold tags_set. cbn. eapply Permutation_NoDup; [symmetry; apply sort_str_perm|exact N].
Qed.
Definition vars_only (t : term) : Prop := tags_set t /\ exists v, t = TVar v.
Lemma vars_pool : pool vars_only.
Proof.
  split; [now intros t []|]. intros a b [_ (v & ->)] [_ (w & ->)]. exact I.
Qed.
Lemma canon_term_eqb t u : some_var t -> some_var u -> term_eqb (canon_term t) (canon_term u) = term_eqb t u.
Proof.
  intros (v & -> & N) (w & -> & M). cbn. unfold var_eqb. cbn [v_name v_tags]. f_equal.
  apply Bool.eq_iff_eq_true. rewrite !set_eqb_string. split; intros H x; specialize (H x); rewrite !sort_str_In in *; auto.
Qed.
Lemma canon_term_lt t u : term_lt (canon_term t) (canon_term u) = term_lt t u.
Proof. rewrite !term_lt_key. unfold tkey. rewrite !canon_tags, !canon_name. now destruct t, u. Qed.
Lemma canon_lt p q : Forall some_var (snd p) -> Forall some_var (snd q) -> atom_ltb (canon p) (canon q) = atom_ltb p q.
Proof.
  destruct p as [n ts], q as [m us]. cbn [snd]. intros F G. unfold atom_ltb, atom_lt, canon. cbn [fst snd].
  destruct (String.eqb n m); auto. revert us G. induction F as [|t ts T F IH]; intros us G; destruct G as [|u us U G]; cbn; auto.
  rewrite canon_term_eqb, canon_term_lt by auto. now rewrite IH.
Qed.
Lemma sort_map {A B} (lt : A -> A -> bool) (lt' : B -> B -> bool) (f : A -> B) l :
  (forall x y, In x l -> In y l -> lt' (f x) (f y) = lt x y) -> sort_by lt' (map f l) = map f (sort_by lt l).
Proof.
  intros H. induction l as [|x l IH]; cbn; auto. rewrite IH by (intros; apply H; cbn; auto).
  assert (I : forall y, In y (sort_by lt l) -> lt' (f y) (f x) = lt y x).
  { intros y Y. apply H; cbn; auto. right. exact (Permutation_in _ (sort_perm lt l) Y). }
  clear - I. induction (sort_by lt l) as [|y m IH]; cbn; auto. rewrite I by (cbn; auto).
  destruct (lt y x); cbn; auto. now rewrite IH by (intros; apply I; cbn; auto).
Qed.
Lemma canon_eqb p q : Forall some_var (snd p) -> Forall some_var (snd q) -> atom_eqb (canon p) (canon q) = atom_eqb p q.
Proof.
  destruct p as [n ts], q as [m us]. cbn [snd]. intros F G. unfold atom_eqb, canon. cbn [fst snd]. f_equal.
  revert us G. induction F as [|t ts T F IH]; intros us G; destruct G as [|u us U G]; cbn; auto.
  rewrite canon_term_eqb by auto. now rewrite IH.
Qed.
Lemma canon_perm l m : NoDupE atom_eqb l -> NoDupE atom_eqb m -> set_eqb atom_eqb l m = true ->
  (forall p, In p l -> Forall some_var (snd p)) -> (forall p, In p m -> Forall some_var (snd p)) ->
  Permutation (map canon l) (map canon m).
Proof.
  intros N1 N2 E F G. destruct (NoDupE_set_eqb_perm atom_eqb atom_eqb_equiv l m N1 N2 E) as (m' & P & R).
  transitivity (map canon m'); [|now apply Permutation_map, Permutation_sym].
  assert (G' : forall p, In p m' -> Forall some_var (snd p)).
  { intros p H. apply G. apply (Permutation_in _ (Permutation_sym P) H). }
  clear - F G' R. replace (map canon l) with (map canon m'); [reflexivity|].
  induction R as [|p q l m X R IH]; auto. cbn. f_equal; [|apply IH; intros; auto using in_cons].
  unfold atom_eqb in X. apply andb_true_iff in X as [X1 X2]. apply String.eqb_eq in X1. unfold canon. rewrite X1. f_equal.
  symmetry. apply canon_same; auto; [apply F|apply G']; cbn; auto.
Qed.
Lemma predicates_same l m : NoDupE atom_eqb l -> NoDupE atom_eqb m -> set_eqb atom_eqb l m = true ->
  (forall p, In p l -> Forall some_var (snd p)) -> (forall p, In p m -> Forall some_var (snd p)) ->
  print_predicates l = print_predicates m.
Proof.
  intros N1 N2 E F G. pose proof (canon_perm l m N1 N2 E F G) as P. unfold print_predicates. do 2 f_equal.
  assert (K : forall x : list atom, (forall p, In p x -> Forall some_var (snd p)) ->
     map show_pred_decl (sort_by atom_ltb x) = map show_pred_decl (sort_by atom_ltb (map canon x))).
  { intros x X. rewrite (sort_map atom_ltb atom_ltb canon) by (intros; apply canon_lt; auto). rewrite map_map.
    apply map_ext. intros p. symmetry. apply show_decl_canon. }
  rewrite (K l F), (K m G). f_equal. apply (sort_atoms_any_order vars_only); auto using vars_pool.
  - apply Forall_forall. intros q Q. apply in_map_iff in Q as (p & <- & Hp). cbn [canon snd].
    specialize (F p Hp). clear - F. induction F as [|t ts T F IH]; cbn; constructor; auto. now apply canon_some_var.
  - clear - N1 F. induction N1 as [|p l M N IH]; cbn; constructor.
    + apply not_true_is_false. intros X. unfold memb in X. apply existsb_exists in X as (q & Q & X).
      apply in_map_iff in Q as (p' & <- & Hp). change (atom_eqb (canon p) (canon p') = true) in X.
      rewrite canon_eqb in X by (apply F; cbn; auto). apply not_true_iff_false in M. apply M. unfold memb. apply existsb_exists. eauto.
    + apply IH. intros; apply F; cbn; auto.
Qed.

(** ** functions *)
Lemma functions_same a b : NoDupE atom_eqb (map fst a) -> NoDupE atom_eqb (map fst b) -> functions_eqb a b = true ->
  (forall f, In f a -> Forall some_var (snd (fst f))) -> (forall f, In f b -> Forall some_var (snd (fst f))) ->
  print_functions a = print_functions b.
Proof.
  intros N1 N2 E F G. pose proof (dict_set _ _ a b atom_eqb_equiv opt_str_equiv N1 N2 E) as S1.
  destruct (NoDupE_set_eqb_perm _ (pair_equiv _ _ atom_eqb_equiv opt_str_equiv) a b) as (b' & P & R); auto using NoDupE_pairs.
  unfold print_functions.
  assert (X : print_typed_lists function_skeleton "(:functions" (group_by (map (fun kv => (snd kv, fst kv)) a)) (")" +++ nl)
            = print_typed_lists function_skeleton "(:functions" (group_by (map (fun kv => (snd kv, fst kv)) b)) (")" +++ nl)).
  { apply typed_lists_same. rewrite !map_map. cbn [fst snd].
    transitivity (map (fun x : atom * option string => (snd x, function_skeleton (fst x))) b');
      [|now apply Permutation_map, Permutation_sym].
    assert (G' : forall p, In p b' -> Forall some_var (snd (fst p))).
    { intros p H. apply G. apply (Permutation_in _ (Permutation_sym P) H). }
    match goal with |- Permutation ?x ?y => replace x with y; [reflexivity|] end.
    clear - F G' R. induction R as [|p q l m Y R IH]; auto. cbn. f_equal; [|apply IH; intros; auto using in_cons].
    unfold pair_eqb in Y. apply andb_true_iff in Y as [Y1 Y2]. apply okey_eqb_eq in Y2. rewrite Y2. f_equal.
    rewrite <- (skeleton_canon (fst p)), <- (skeleton_canon (fst q)). f_equal.
    unfold atom_eqb in Y1. apply andb_true_iff in Y1 as [X1 X2]. apply String.eqb_eq in X1. unfold canon. rewrite X1. f_equal.
    symmetry. apply canon_same; auto; [apply F|apply G']; cbn; auto. }
  apply Permutation_length in P. apply Forall2_length in R.
  destruct a, b; auto; cbn in P, R; rewrite <- P in R; discriminate R.
Qed.

(** ** actions and derived predicates *)
Lemma params_same ts : forall us, Forall typed_var ts -> Forall typed_var us -> list_eqb term_eqb ts us = true -> ts = us.
Proof.
  induction ts as [|t ts IH]; intros [|u us] F G E; cbn in E; try discriminate; auto.
  inversion F as [|? ? (v & -> & V) F']; inversion G as [|? ? (w & -> & W) G']; subst.
  apply andb_true_iff in E as [E1 E2]. cbn in E1. rewrite (single_var v w V W E1). f_equal. auto.
Qed.
Definition texts_agree (fs gs : list form) : Prop :=
  Forall settled fs /\ Forall settled gs /\ same_numbers (flat_map numbers fs) (flat_map numbers gs).
Lemma agree_sub fs gs fs' gs' : texts_agree fs gs -> incl fs' fs -> incl gs' gs -> texts_agree fs' gs'.
Proof.
  intros (F & G & N) I J. split; [|split].
  - rewrite Forall_forall in *. auto.
  - rewrite Forall_forall in *. auto.
  - intros x y X Y. apply N; apply in_flat_map in X as (f & X1 & X2); apply in_flat_map in Y as (g & Y1 & Y2);
      apply in_flat_map; eauto.
Qed.
Lemma agree_text f g : texts_agree [f] [g] -> form_eqb f g = true -> show_form f = show_form g.
Proof.
  intros (F & G & N) E. apply show_form_same; auto; [now inversion F|now inversion G|].
  cbn in N. now rewrite !app_nil_r in N.
Qed.
Lemma action_same a b : Forall typed_var (a_params a) -> Forall typed_var (a_params b) ->
  texts_agree (action_forms a) (action_forms b) -> action_eqb a b = true -> show_action a = show_action b.
Proof.
  intros P Q T E. unfold action_eqb in E. apply andb_true_iff in E as [E E4]. apply andb_true_iff in E as [E E3].
  apply andb_true_iff in E as [E1 E2]. apply String.eqb_eq in E1. apply params_same in E2; auto.
  unfold show_action, action_forms in *. rewrite E1, E2.
  assert (X : match a_pre a with Some f => "    :precondition " +++ show_form f +++ nl | None => "" end
            = match a_pre b with Some f => "    :precondition " +++ show_form f +++ nl | None => "" end).
  { destruct (a_pre a) as [f|], (a_pre b) as [g|]; cbn in E3; try discriminate; auto. rewrite (agree_text f g); auto.
    eapply agree_sub; [exact T|intros x [<-|[]]; apply in_or_app; cbn; auto..]. }
  assert (Y : match a_eff a with Some f => "    :effect " +++ show_form f +++ nl | None => "" end
            = match a_eff b with Some f => "    :effect " +++ show_form f +++ nl | None => "" end).
  { destruct (a_eff a) as [f|], (a_eff b) as [g|]; cbn in E4; try discriminate; auto. rewrite (agree_text f g); auto.
    eapply agree_sub; [exact T|intros x [<-|[]]; apply in_or_app; cbn; auto..]. }
  now rewrite X, Y.
Qed.
Lemma derived_same x y : Forall some_var (dp_terms x) -> Forall some_var (dp_terms y) ->
  texts_agree [dp_cond x] [dp_cond y] -> derived_eqb x y = true -> show_derived x = show_derived y.
Proof.
  intros P Q T E. unfold derived_eqb in E. apply andb_true_iff in E as [E1 E2].
  unfold show_derived. rewrite (agree_text _ _ T E2), (predicates_same [(dp_name x, dp_terms x)] [(dp_name y, dp_terms y)]); auto.
  - constructor; [reflexivity|constructor].
  - constructor; [reflexivity|constructor].
  - unfold set_eqb, subset, memb. cbn in *. unfold atom_eqb. cbn [fst snd]. rewrite E1. cbn.
    assert (E3 : atom_eqb (dp_name y, dp_terms y) (dp_name x, dp_terms x) = true); [|unfold atom_eqb in E3; cbn in E3; now rewrite E3].
    rewrite (eqv_sym _ atom_eqb_equiv). exact E1.
  - intros p [<-|[]]. exact P.
  - intros p [<-|[]]. exact Q.
Qed.

(** ** domains *)
Lemma req_NoDup l : NoDupE req_eqb (dedup req_eqb l).
Proof. apply dedup_NoDupE, req_eqb_equiv. Qed.
Lemma reqs_same l m : NoDupE req_eqb l -> NoDupE req_eqb m -> set_eqb req_eqb l m = true ->
  Permutation (map req_str l) (map req_str m).
Proof.
  intros N M E. eapply set_texts; eauto using req_eqb_equiv. intros x y _ _ X. apply req_eqb_eq in X. now subst.
Qed.
Lemma consts_perm (l m : list const) : NoDup (map fst l) -> NoDup (map fst m) -> (forall c, In c l <-> In c m) -> Permutation l m.
Proof. intros N M. apply NoDup_Permutation; eapply NoDup_map_inv; eauto. Qed.
Lemma domain_sets d : domain_built d -> NoDupE req_eqb (d_reqs d) /\ NoDup (map fst (d_constants d))
  /\ NoDupE atom_eqb (d_predicates d) /\ NoDupE derived_eqb (d_derived d) /\ NoDupE action_eqb (d_actions d).
Proof.
  intros (n & rs & ty & cs & ps & dps & fs & acts & H).
  apply mk_domain_inv in H as (_ & _ & -> & _ & _ & -> & -> & -> & _ & -> & _). split; [apply req_NoDup|].
  split; [apply objects_NoDup|]. split; [apply dedup_NoDupE, atom_eqb_equiv|].
  split; [apply dedup_NoDupE, derived_eqb_equiv|apply dedup_NoDupE, action_eqb_equiv].
Qed.
Lemma set_eqb_nil {A} (eqb : A -> A -> bool) l m : set_eqb eqb l m = true -> (l = [] <-> m = []).
Proof. destruct l, m; cbn; intros E; split; intros; try discriminate; auto. Qed.
Theorem domain_same a b : domain_built a -> domain_built b -> settled_domain a -> settled_domain b ->
  NoDupE atom_eqb (map fst (d_functions a)) -> NoDupE atom_eqb (map fst (d_functions b)) ->
  (forall c, In c (d_constants a) <-> In c (d_constants b)) ->
  same_numbers (flat_map numbers (domain_forms a)) (flat_map numbers (domain_forms b)) ->
  domain_eqb a b = true -> show_domain a = show_domain b.
Proof.
  intros BA BB SA SB FA FB C N E.
  destruct (domain_sets a BA) as (RA & CA & PA & DA & AA), (domain_sets b BB) as (RB & CB & PB & DB & AB).
  destruct (built_types a BA) as [TA _], (built_types b BB) as [TB _].
  destruct SA as [SA1 SA2 SA3 SA4 SA5], SB as [SB1 SB2 SB3 SB4 SB5].
  assert (T : texts_agree (domain_forms a) (domain_forms b)) by (split; auto).
  unfold domain_eqb in E. apply andb_true_iff in E as [E E8]. apply andb_true_iff in E as [E E7].
  apply andb_true_iff in E as [E E6]. apply andb_true_iff in E as [E E5]. apply andb_true_iff in E as [E E4].
  apply andb_true_iff in E as [E E3]. apply andb_true_iff in E as [E1 E2]. apply String.eqb_eq in E1.
  unfold show_domain, domain_body.
  rewrite (types_same _ _ (types_perm _ _ TA TB E3)). destruct (print_types_with_parents (d_types b)) as [ts|]; auto.
  cbn [bind]. rewrite E1.
  rewrite (sorted_collection _ _ _ _ _ (reqs_same _ _ RA RB E2)).
  rewrite (constants_same _ _ _ (consts_perm _ _ CA CB C)).
  rewrite (functions_same _ _ FA FB E6 SA2 SB2).
  assert (X : match d_predicates a with [] => "" | ps => "(:predicates " +++ print_predicates ps +++ ")" +++ nl end
            = match d_predicates b with [] => "" | ps => "(:predicates " +++ print_predicates ps +++ ")" +++ nl end).
  { pose proof (predicates_same _ _ PA PB E5 SA1 SB1) as P. pose proof (set_eqb_nil _ _ _ E5) as Z.
    destruct (d_predicates a), (d_predicates b); auto.
    - discriminate (proj1 Z eq_refl).
    - discriminate (proj2 Z eq_refl).
    - now rewrite P. }
  rewrite X.
  rewrite (sorted_collection _ (map show_derived (d_derived a)) (map show_derived (d_derived b))).
  - rewrite (sorted_collection _ (map (fun a => show_action a +++ nl) (d_actions a)) (map (fun a => show_action a +++ nl) (d_actions b))); auto.
    eapply set_texts; eauto using action_eqb_equiv. intros x y HX HY XY. f_equal. apply action_same; auto.
    eapply agree_sub; [exact T|..]; intros f F; apply in_or_app; right; apply in_flat_map; eauto.
  - eapply set_texts; eauto using derived_eqb_equiv. intros x y HX HY XY. apply derived_same; auto.
    eapply agree_sub; [exact T|..]; intros f [<-|[]]; apply in_or_app; left; apply in_map; auto.
Qed.

(** ** problems *)
Lemma problem_sets p : problem_reach p -> NoDupE req_eqb (get_requirements p) /\ NoDup (map fst (p_objects p))
  /\ NoDupE form_eqb (p_init p).
Proof.
  induction 1 as [n d dn rs objs init goal m p DB H|p d p' R IH DB H].
  - unfold mk_problem in H. apply bind_Ok in H as (n' & N & H). apply bind_Ok in H as ((d', dn') & D & H).
    apply bind_Ok in H as (rs' & RR & H). apply bind_Ok in H as ([] & _ & H). apply bind_Ok in H as ([] & _ & H).
    inversion H; subst. cbn [p_objects p_init]. split; [|split; [apply objects_NoDup|apply dedup_NoDupE, form_eqb_equiv]].
    unfold get_requirements. cbn [p_domain p_reqs fst snd].
    unfold parse_domain_and_name in D. unfold parse_requirements in RR.
    destruct d as [d|].
    + assert (d' = Some d) as ->.
      { destruct dn as [dn|]; [|now inversion D]. apply bind_Ok in D as ([] & _ & D). apply bind_Ok in D as (x & _ & D). now inversion D. }
      destruct (domain_sets d (DB d eq_refl)) as (X & _). exact X.
    + assert (d' = None) as ->.
      { destruct dn as [dn|]; [|discriminate]. apply bind_Ok in D as (x & _ & D). now inversion D. }
      destruct rs as [rs|]; inversion RR; subst; [apply req_NoDup|constructor].
  - unfold set_domain in H. inversion H; subst. destruct IH as (_ & O & F). split; [|auto].
    unfold get_requirements. cbn. destruct (domain_sets d DB) as (X & _). exact X.
Qed.
Theorem problem_same a b : problem_reach a -> problem_reach b ->
  Forall settled (problem_forms a) -> Forall settled (problem_forms b) ->
  (forall c, In c (p_objects a) <-> In c (p_objects b)) ->
  same_numbers (flat_map numbers (problem_forms a)) (flat_map numbers (problem_forms b)) ->
  problem_eqb a b = true -> show_problem a = show_problem b.
Proof.
  intros RA RB SA SB C N E. destruct (problem_sets a RA) as (QA & OA & IA), (problem_sets b RB) as (QB & OB & IB).
  assert (T : texts_agree (problem_forms a) (problem_forms b)) by (split; auto).
  unfold problem_eqb in E. apply andb_true_iff in E as [E E8]. apply andb_true_iff in E as [E E7].
  apply andb_true_iff in E as [E E6]. apply andb_true_iff in E as [E E5]. apply andb_true_iff in E as [E E4].
  apply andb_true_iff in E as [E E3]. apply andb_true_iff in E as [E1 E2]. apply String.eqb_eq in E1, E3.
  unfold show_problem, problem_body. rewrite E1, E3.
  rewrite (sorted_collection _ _ _ _ _ (reqs_same _ _ QA QB E4)).
  rewrite (constants_same _ _ _ (consts_perm _ _ OA OB C)).
  rewrite (agree_text (p_goal a) (p_goal b)); auto.
  2:{ eapply agree_sub; [exact T|..]; intros f [<-|[]]; apply in_or_app; right; cbn; auto. }
  rewrite (sorted_collection _ (map show_form (p_init a)) (map show_form (p_init b))).
  2:{ eapply set_texts; eauto using form_eqb_equiv. intros x y X Y XY. apply agree_text; auto.
      eapply agree_sub; [exact T|..]; intros f [<-|[]]; apply in_or_app; auto. }
  assert (M : match p_metric a with Some m => "(:metric " +++ show_metric m +++ ")" +++ nl | None => "" end
            = match p_metric b with Some m => "(:metric " +++ show_metric m +++ ")" +++ nl | None => "" end).
  { unfold problem_forms in T. destruct (p_metric a) as [m|], (p_metric b) as [m'|]; cbn in E8; try discriminate; auto.
    unfold metric_eqb in E8. apply andb_true_iff in E8 as [X Y]. apply String.eqb_eq in Y. unfold show_metric. rewrite Y.
    rewrite (agree_text (me_expr m) (me_expr m')); auto.
    eapply agree_sub; [exact T|..]; intros f [<-|[]]; apply in_or_app; right; cbn; auto. }
  now rewrite M.
Qed.

(** ** plans *)
Theorem plan_same a b : plan_eqb a b = true -> show_plan a = show_plan b.
Proof.
  intros E. unfold show_plan. f_equal. revert b E. induction a as [|[n cs] a IH]; intros [|[m ds] b] E; cbn in E; try discriminate; auto.
  apply andb_true_iff in E as [E E2]. apply andb_true_iff in E as [E1 E3]. cbn. f_equal; auto.
  apply String.eqb_eq in E1. subst. unfold show_step. cbn [fst snd].
  assert (M : map fst cs = map fst ds); [|now rewrite M].
  clear - E3. revert ds E3. induction cs as [|[x g] cs IH]; intros [|[y h] ds] E; cbn in E; try discriminate; auto.
  apply andb_true_iff in E as [X Y]. unfold const_eqb in X. cbn in X. apply String.eqb_eq in X. cbn. f_equal; auto.
Qed.
