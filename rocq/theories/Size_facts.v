(** Proofs for C87. *)
From Coq Require Import String List Bool Lia Arith.
From Verif Require Import Py Names Reqs Logic Validation Core Lexer TypedList Parser Spec_Size.
From Verif Require Import UpdateTags Spec_Parse Spec_Declared Parse_facts Declared_facts Domain_facts Problem_facts CoreEq_facts FormatDomain_facts Action_facts.
From Verif Require Import Py_facts Logic_facts Ops_facts Built_facts Text_facts Grammar_facts GD_facts.
Import ListNotations.
Open Scope string_scope.
Open Scope list_scope.

Lemma Ok_inj {A} (x y : A) : Ok x = Ok y -> x = y.
Proof. congruence. Qed.

(** ** sums *)
Lemma sum_app {A} (w : A -> nat) l m : sum w (l ++ m) = sum w l + sum w m.
Proof. unfold sum. induction l; cbn; auto. rewrite IHl. lia. Qed.
Lemma sum_dedup_from {A} (w : A -> nat) eqb l : forall seen, sum w (dedup_from eqb seen l) <= sum w l.
Proof.
  induction l as [|x l IH]; intros seen; cbn; auto. destruct (memb eqb x seen); cbn.
  - specialize (IH seen). unfold sum in *. lia.
  - specialize (IH (x :: seen)). unfold sum in *. lia.
Qed.
Lemma sum_dedup {A} (w : A -> nat) eqb l : sum w (dedup eqb l) <= sum w l.
Proof. apply sum_dedup_from. Qed.
Lemma length_sum {A} (l : list A) : length l = sum (fun _ => 1) l.
Proof. induction l; cbn; auto. Qed.
Lemma length_dedup {A} eqb (l : list A) : length (dedup eqb l) <= length l.
Proof. rewrite !length_sum. apply sum_dedup. Qed.
Lemma sum_flat_map {A B} (w : B -> nat) (v : A -> nat) (k : A -> list B) l :
  (forall x, In x l -> sum w (k x) <= v x) -> sum w (flat_map k l) <= sum v l.
Proof.
  induction l as [|x l IH]; cbn; intros H; [auto|]. change (sum w (k x ++ flat_map k l) <= v x + sum v l).
  rewrite sum_app. pose proof (H x (or_introl eq_refl)). specialize (IH (fun y I => H y (or_intror I))). lia.
Qed.
Lemma sum_mapR {A B} (w : B -> nat) (v : A -> nat) (k : A -> res B) l : forall l', mapR k l = Ok l' ->
  (forall x y, In x l -> k x = Ok y -> w y <= v x) -> sum w l' <= sum v l.
Proof.
  induction l as [|x l IH]; cbn; intros l' E H; [injection E as <-; auto|].
  apply bind_Ok in E as (y & Ey & E). apply bind_Ok in E as (ys & Es & E). injection E as <-.
  pose proof (H x y (or_introl eq_refl) Ey). specialize (IH ys Es (fun a b I => H a b (or_intror I))). cbn. unfold sum in *. lia.
Qed.
Lemma mapR_length {A B} (k : A -> res B) l l' : mapR k l = Ok l' -> length l' = length l.
Proof. intros H. apply mapR_Ok in H. symmetry. induction H; cbn; auto. Qed.
Lemma dict_of_list_length {K V} (eqb : K -> K -> bool) (l : list (K * V)) : length (dict_of_list eqb l) <= length l.
Proof.
  assert (S1 : forall k v (d : list (K * V)), length (dict_set eqb k v d) <= S (length d)).
  { intros k v d. induction d as [|[k' v'] d IH]; cbn; auto. destruct (eqb k k'); cbn; lia. }
  assert (X : forall (l : list (K * V)) d, length (fold_left (fun d kv => dict_set eqb (fst kv) (snd kv) d) l d) <= length l + length d).
  { induction l0 as [|[k v] l0 IH]; cbn; intros d; auto. specialize (IH (dict_set eqb k v d)). specialize (S1 k v d). lia. }
  specialize (X l []). cbn in X. unfold dict_of_list. lia.
Qed.

(** ** formulas *)
Lemma size_ops ops : fold_right (fun g n => size g + n) 0 ops = sum size ops.
Proof. reflexivity. Qed.
Lemma leaves_size c f : sum size (leaves c f) <= size f.
Proof.
  induction f using form_ind'; cbn [leaves]; try (cbn; lia).
  - destruct (match c with CFun k' => bfun_eqb k' k | _ => false end); [|cbn; lia].
    cbn [size]. rewrite size_ops. rewrite Forall_forall in H. pose proof (sum_flat_map size size (leaves c) ops H). lia.
  - destruct (match c with CBin k' => bop_eqb k' k | _ => false end); [|cbn; lia].
    cbn [size]. rewrite size_ops. rewrite Forall_forall in H. pose proof (sum_flat_map size size (leaves c) ops H). lia.
Qed.
Lemma size_raw c ops : size (raw_node c ops) = 1 + sum size ops.
Proof. destruct c; reflexivity. Qed.
Lemma simplify_size c i ops : sum size (simplify_operands c i ops) <= sum size ops.
Proof.
  rewrite simplify_spec. assert (X : sum size (if i then dedup form_eqb ops else ops) <= sum size ops) by (destruct i; auto; apply sum_dedup).
  destruct (if i then dedup form_eqb ops else ops) as [|x [|y l]]; auto.
  eapply Nat.le_trans; [|exact X]. eapply Nat.le_trans; [apply sum_dedup|]. apply sum_flat_map. intros z _. apply leaves_size.
Qed.
Lemma mk_op_size c ops : size (mk_op c ops) <= 1 + sum size ops.
Proof.
  unfold mk_op. destruct (metaclass c) as [i|]; [|now rewrite size_raw].
  pose proof (simplify_size c i ops) as S. destruct (simplify_operands c i ops) as [|x [|y l]]; rewrite ?size_raw; try lia.
  destruct i; rewrite ?size_raw; cbn in *; lia.
Qed.

(** ** tokens *)
Definition tokens (s : sexp) : nat := length (flat s).
Definition all_tokens (l : list sexp) : nat := sum tokens l.
Lemma tokens_list l : tokens (SList l) = 2 + all_tokens l.
Proof.
  unfold tokens at 1, all_tokens. cbn [flat length]. rewrite app_length. cbn [length].
  assert (X : length (flat_map flat l) = sum tokens l). { induction l; cbn; auto. rewrite app_length, IHl. reflexivity. } lia.
Qed.
Lemma tokens_pos s : 1 <= tokens s.
Proof. destruct s; [cbn; auto|]. rewrite tokens_list. lia. Qed.
Lemma length_tokens l : length l <= all_tokens l.
Proof. induction l as [|x l IH]; cbn; auto. pose proof (tokens_pos x). unfold all_tokens, sum in *. lia. Qed.
Lemma terms_length l : forall ts, terms l = Some ts -> length ts <= length l.
Proof.
  assert (X : forall n l, length l <= n -> forall ts, terms l = Some ts -> length ts <= length l).
  { induction n as [|n IH]; intros [|x r] L ts; cbn in *; try lia; try (intros [= <-]; cbn; lia).
    destruct x as [[]|]; try discriminate.
    - destruct r as [|[[]|] r]; try discriminate. destruct (terms r) eqn:E; [|discriminate]. intros [= <-]. cbn in *. apply IH in E; lia.
    - destruct (terms r) eqn:E; [|discriminate]. intros [= <-]. apply IH in E; cbn; lia. }
  exact (X (length l) l (Nat.le_refl _)).
Qed.

(** ** conditions and effects *)
Definition few_vars (c : gctx) : Prop := forall l tl, g_vars c l = Ok tl -> length tl <= length l.
Lemma sum_le {A B} (f : A -> res B) (w : A -> nat) (u : B -> nat) l : (forall x, In x l -> forall y, f x = Ok y -> u y <= w x) ->
  forall m, mapR f l = Ok m -> sum u m <= sum w l.
Proof.
  intros H m M. apply mapR_Ok in M. induction M as [|x y l m E M IH]; cbn; auto.
  pose proof (H x (or_introl eq_refl) y E). assert (sum u m <= sum w l) by (apply IH; intros; apply H; auto; now right). unfold sum in *. lia.
Qed.
Lemma resolved_length c args ps rs ts : terms args = Some ps -> mapR (resolve c) ps = Ok rs -> mapR (constant_or_variable c) rs = Ok ts ->
  length ts <= all_tokens args.
Proof.
  intros H R T. apply terms_length in H. apply mapR_length in R, T. pose proof (length_tokens args). lia.
Qed.
Lemma tokens_group t args : tokens (SList (SAtom t :: args)) = 3 + all_tokens args.
Proof. rewrite tokens_list. reflexivity. Qed.
Lemma of_opt_Ok' {A} (o : option A) x : of_opt o = Ok x -> o = Some x.
Proof. destruct o; [intros H; now apply Ok_inj in H; subst|discriminate]. Qed.
Lemma atomic_pred_size c n args f : atomic_pred c n args = Ok f -> size f <= 1 + all_tokens args.
Proof.
  unfold atomic_pred. intros H. apply bind_Ok in H as (ps & P & H). apply bind_Ok in H as (rs & R & H). apply bind_Ok in H as (ts & T & H).
  apply mk_pred_Ok in H. subst. cbn. apply of_opt_Ok' in P. pose proof (resolved_length _ _ _ _ _ P R T). lia.
Qed.
Lemma atomic_eq_size c args f : atomic_eq c args = Ok f -> size f <= 1 + all_tokens args.
Proof.
  unfold atomic_eq. destruct (terms args) as [[|a [|b [|]]]|] eqn:E; try discriminate. intros H.
  apply terms_length in E. pose proof (length_tokens args). cbn in E.
  apply bind_Ok in H as (? & _ & H). apply bind_Ok in H as (? & _ & H). apply bind_Ok in H as (? & _ & H).
  apply bind_Ok in H as (? & _ & H). apply bind_Ok in H as (? & _ & H). apply mk_eq_Ok in H. subst. cbn. lia.
Qed.
Lemma atomic_size c s f : atomic_formula_term c s = Ok f -> size f <= tokens s.
Proof.
  destruct s as [|[|[[]|] args]]; try discriminate; cbn [atomic_formula_term]; rewrite tokens_group; intros H.
  - apply atomic_pred_size in H. lia.
  - destruct (String.eqb s "="); [|discriminate]. apply atomic_eq_size in H. lia.
Qed.
Lemma f_head_size c s f : f_head c s = Ok f -> size f <= tokens s.
Proof.
  destruct s as [[]|[|[[]|] args]]; try discriminate; cbn [f_head]; intros H.
  - apply mk_numfun_Ok in H. subst. cbn. auto.
  - rewrite tokens_group. apply bind_Ok in H as (ps & P & H). apply bind_Ok in H as (rs & R & H). apply bind_Ok in H as (ts & T & H).
    apply mk_numfun_Ok in H. subst. cbn. apply of_opt_Ok' in P. pose proof (resolved_length _ _ _ _ _ P R T). lia.
Qed.
Lemma ops_size {A} (f : A -> res form) (w : A -> nat) c args ops : mapR f args = Ok ops -> Forall (fun x => forall y, f x = Ok y -> size y <= w x) args ->
  size (mk_op c ops) <= 1 + sum w args.
Proof.
  intros M F. rewrite Forall_forall in F. pose proof (sum_le f w size args F ops M). pose proof (mk_op_size c ops). lia.
Qed.
Lemma f_exp_size c s : forall f, f_exp c s = Ok f -> size f <= tokens s.
Proof.
  induction s as [t|l IH] using sexp_ind'; intros f H.
  - destruct t; try discriminate; [apply (f_head_size c _ f H)|]. cbn in H. apply bind_Ok in H as (v & _ & H). inversion H; subst. cbn. auto.
  - destruct l as [|[[]|] args]; try discriminate; [apply (f_head_size c _ f H)|].
    cbn [f_exp] in H. destruct (arith_op s (length args)); [|discriminate]. apply bind_Ok in H as (ops & M & H). apply Ok_inj in H. subst.
    inversion IH as [|? ? _ IH']; subst. rewrite tokens_group. pose proof (ops_size (f_exp c) tokens (CFun b) args ops M IH'). unfold mk_binfun, all_tokens. lia.
Qed.
Lemma pair_size c x y f g op : size f <= tokens x -> size g <= tokens y -> op = mk_op c [f; g] -> size op <= 1 + all_tokens [x; y].
Proof. intros A B ->. pose proof (mk_op_size c [f; g]). unfold all_tokens. cbn in *. lia. Qed.
Lemma vars_length tl vs : mk_vars tl = Ok vs -> length vs = length tl.
Proof. apply mapR_length. Qed.
Section Bound.
  Variable c : gctx.
  Hypothesis HC : few_vars c.
  Lemma gd_size s : forall f, gd c s = Ok f -> size f <= tokens s.
  Proof.
    induction s as [t|l IH] using sexp_ind'; intros f H; [discriminate|].
    destruct l as [|[[]|] args]; try discriminate; inversion IH as [|? ? _ IH']; subst; clear IH; rewrite tokens_group.
    - cbn [gd] in H.
      destruct (String.eqb s "or").
      { apply bind_Ok in H as (fs & M & H). 
        pose proof (ops_size (gd c) tokens (CBin OOr) args fs M IH'). unfold all_tokens.
        repeat (apply bind_Ok in H as (? & _ & H)). apply Ok_inj in H. subst. unfold mk_or, mk_bin in *. lia. }
      destruct (String.eqb s "not").
      { destruct args as [|x [|]]; try discriminate. apply bind_Ok in H as (g & M & H). inversion IH'; subst.
        repeat (apply bind_Ok in H as (? & _ & H)). apply Ok_inj in H. subst. cbn. specialize (H2 _ M). lia. }
      destruct (String.eqb s "and").
      { apply bind_Ok in H as (fs & M & H).
        pose proof (ops_size (gd c) tokens (CBin OAnd) args fs M IH'). unfold all_tokens.
        repeat (apply bind_Ok in H as (? & _ & H)). apply Ok_inj in H. subst. unfold mk_and, mk_bin in *. lia. }
      destruct (String.eqb s "imply").
      { destruct args as [|x [|y [|]]]; try discriminate. apply bind_Ok in H as (g & M & H). apply bind_Ok in H as (g' & M' & H).
        inversion IH' as [|? ? Ix IH1]; subst. inversion IH1 as [|? ? Iy _]; subst.
        repeat (apply bind_Ok in H as (? & _ & H)). apply Ok_inj in H.
        pose proof (pair_size _ x y g g' f (Ix _ M) (Iy _ M') (eq_sym H)). lia. }
      destruct (String.eqb s "exists" || String.eqb s "forall").
      { destruct (if String.eqb s "exists" then (QExists, EXISTENTIAL_PRECONDITION) else (QForall, UNIVERSAL_PRECONDITION)) as [q r].
        destruct args as [|[|vs] [|x [|]]]; try discriminate. apply bind_Ok in H as (tl & V & H). apply bind_Ok in H as (g & M & H).
        inversion IH' as [|? ? _ IH1]; subst. inversion IH1 as [|? ? Ix _]; subst. specialize (Ix _ M). apply HC in V.
        unfold all_tokens. cbn [sum fold_right]. rewrite tokens_list. pose proof (length_tokens vs).
        apply bind_Ok in H as (? & _ & H). apply bind_Ok in H as (vars & Mv & H). apply vars_length in Mv. apply Ok_inj in H. subst. cbn [size mk_quant].
        pose proof (length_dedup var_eqb vars). lia. }
      apply atomic_pred_size in H. lia.
    - cbn [gd] in H. destruct (String.eqb s "=" && starts_term args). { apply atomic_eq_size in H. lia. }
      destruct (comparison s) as [k|]; [|discriminate]. destruct args as [|x [|y [|]]]; try discriminate.
      apply bind_Ok in H as (g & M & H). apply bind_Ok in H as (g' & M' & H). apply Ok_inj in H.
      pose proof (pair_size _ x y g g' f (f_exp_size _ _ _ M) (f_exp_size _ _ _ M') (eq_sym H)). lia.
  Qed.
  Lemma emptyor_pregd_size s f : emptyor_pregd c s = Ok f -> size f <= tokens s.
  Proof. destruct s as [|[|]]; try apply gd_size. intros [= <-]. cbn. lia. Qed.
  Lemma p_effect_size s f : p_effect c s = Ok f -> size f <= tokens s.
  Proof.
    destruct s as [|[|[[]|] args]]; try discriminate; [|apply (atomic_size c)].
    intros H. pose proof H as H0. cbn [p_effect] in H. destruct (String.eqb s "not").
    { destruct args as [|x [|]]; try discriminate. apply bind_Ok in H as (g & M & H). apply Ok_inj in H. subst. apply atomic_size in M.
      rewrite tokens_group. unfold all_tokens. cbn. lia. }
    destruct (assign_op s); [|now apply (atomic_size c)].
    destruct args as [|x [|y [|]]]; try discriminate. apply bind_Ok in H as (g & M & H). apply bind_Ok in H as (g' & M' & H). apply Ok_inj in H.
    rewrite tokens_group. pose proof (pair_size _ x y g g' f (f_head_size _ _ _ M) (f_exp_size _ _ _ M') (eq_sym H)). lia.
  Qed.
  Lemma cond_effect_size s f : cond_effect c s = Ok f -> size f <= tokens s.
  Proof.
    destruct s as [|[|[[]|] args]]; try discriminate; try apply p_effect_size.
    cbn [cond_effect]. destruct (String.eqb s "and"); [|apply p_effect_size]. intros H. apply bind_Ok in H as (fs & M & H). apply Ok_inj in H. subst.
    rewrite tokens_group. assert (F : Forall (fun x => forall y, p_effect c x = Ok y -> size y <= tokens x) args) by (apply Forall_forall; intros x _; apply p_effect_size).
    pose proof (ops_size _ tokens (CBin OAnd) args fs M F). unfold all_tokens, mk_and, mk_bin in *. lia.
  Qed.
  Lemma effect_size s : forall top f, effect c top s = Ok f -> size f <= tokens s.
  Proof.
    induction s as [t|l IH] using sexp_ind'; intros top f H; [discriminate|].
    destruct l as [|[[]|] args]; try discriminate; try now apply p_effect_size.
    inversion IH as [|? ? _ IH']; subst; clear IH.
    assert (Fo : forall b, Forall (fun x => forall y, effect c b x = Ok y -> size y <= tokens x) args).
    { intros b. eapply Forall_impl; [|exact IH']. intros x Hx y. apply Hx. }
    pose proof H as H0. cbn [effect] in H. destruct (top && String.eqb s "and").
    { apply bind_Ok in H as (fs & M & H). apply Ok_inj in H. subst. rewrite tokens_group.
      pose proof (ops_size _ tokens (CBin OAnd) args fs M (Fo false)). unfold all_tokens, mk_and, mk_bin in *. lia. }
    destruct (String.eqb s "forall").
    { destruct args as [|[|vs] [|x [|]]]; try discriminate. apply bind_Ok in H as (tl & V & H). apply bind_Ok in H as (g & M & H).
      inversion IH' as [|? ? _ IH1]; subst. inversion IH1 as [|? ? Ix _]; subst. specialize (Ix _ _ M). apply HC in V.
      rewrite tokens_group. unfold all_tokens. cbn [sum fold_right]. rewrite tokens_list. pose proof (length_tokens vs).
      apply bind_Ok in H as (vars & Mv & H). apply vars_length in Mv. apply Ok_inj in H. subst. cbn [size mk_forall].
      pose proof (length_dedup var_eqb vars). lia. }
    destruct (String.eqb s "when").
    { destruct args as [|x [|y [|]]]; try discriminate. apply bind_Ok in H as (g & M & H). apply bind_Ok in H as (g' & M' & H). apply Ok_inj in H. subst.
      apply gd_size in M. apply cond_effect_size in M'. rewrite tokens_group. unfold all_tokens. cbn. lia. }
    destruct (String.eqb s "oneof"); [|now apply p_effect_size].
    destruct args as [|a args]; [discriminate|]. apply bind_Ok in H as (fs & M & H). apply bind_Ok in H as (? & _ & H). apply Ok_inj in H. subst.
    rewrite tokens_group. pose proof (ops_size _ tokens (CBin OOneOf) (a :: args) fs M (Fo true)). unfold all_tokens, mk_bin in *. lia.
  Qed.
  Lemma emptyor_effect_size s f : emptyor_effect c s = Ok f -> size f <= tokens s.
  Proof. destruct s as [|[|]]; try apply effect_size. intros [= <-]. cbn. lia. Qed.
End Bound.

(** ** the text *)
Lemma start_length c : length (snd (start c)) + length (flush (fst (start c))) <= 1.
Proof.
  unfold start. repeat match goal with |- context [if ?b then _ else _] => destruct b end; cbn; auto.
Qed.
Lemma restart_length q c : length (snd (restart q c)) + length (flush (fst (restart q c))) <= length (flush q) + 1.
Proof. unfold restart. pose proof (start_length c). destruct (start c) as [q' ts]. cbn in *. rewrite app_length. lia. Qed.
Lemma lstep_length q c : length (snd (lstep q c)) + length (flush (fst (lstep q c))) <= length (flush q) + 1.
Proof.
  pose proof (restart_length q c) as R. pose proof (start_length c) as St. unfold lstep. destruct q; auto;
    repeat match goal with |- context [if ?b then _ else _] => destruct b end; auto; cbn in *; try lia.
Qed.
Lemma lex_length s : length (lex s) <= String.length s.
Proof.
  assert (X : forall s q, length (lex_from q s) <= length (flush q) + String.length s).
  { clear s. induction s as [|c s IH]; intros q; cbn [lex_from String.length]; [lia|].
    pose proof (lstep_length q c) as L. destruct (lstep q c) as [q' ts]. cbn [fst snd] in L. rewrite app_length. specialize (IH q'). lia. }
  apply (X s QStart).
Qed.
Lemma text_tokens s l : read_text s = Some l -> all_tokens l <= String.length s.
Proof.
  unfold read_text. intros H. apply read_inv in H. pose proof (lex_length s) as L. rewrite H in L.
  replace (all_tokens l) with (length (flat_map flat l)); auto.
  clear. unfold all_tokens. induction l; cbn; auto. rewrite app_length, IHl. reflexivity.
Qed.

(** ** typed lists *)
Lemma assigned_length {A} (groups : list (list A * list string)) tail : length (assigned groups tail) = sum (fun g => length (fst g)) groups + length tail.
Proof.
  unfold assigned. rewrite app_length, map_length. f_equal. unfold sum. induction groups; cbn; auto. now rewrite app_length, map_length, IHgroups.
Qed.
Lemma flat_var_length items : length (flat_map var_sx items) = 2 * length items.
Proof. induction items as [|a items IH]; auto. cbn [flat_map]. rewrite app_length, IH. cbn. lia. Qed.
Lemma written_vars_length l groups tail : written_vars l groups tail -> length (assigned groups tail) <= length l.
Proof.
  rewrite assigned_length. induction 1; cbn [sum fold_right fst]; rewrite ?app_length, flat_var_length; cbn [length]; try lia.
  unfold sum in *. lia.
Qed.
Lemma written_names_length l groups tail : written_names l groups tail -> length (assigned groups tail) <= length l.
Proof.
  rewrite assigned_length. induction 1; cbn [sum fold_right fst]; rewrite ?app_length, map_length; cbn [length]; try lia.
  unfold sum in *. lia.
Qed.
Lemma tlv_length l r : typed_list_variable l = Ok r -> length r <= length l.
Proof. intros H. apply typed_list_variable_iff in H as (g & t & W & -> & _). now apply written_vars_length. Qed.
Lemma tln_length l r : typed_list_name l = Ok r -> length r <= length l.
Proof. intros H. apply typed_list_name_iff in H as (g & t & W & -> & _). rewrite map_length. now apply written_names_length. Qed.
Lemma domain_few st : few_vars (domain_ctx st).
Proof. intros l tl. apply tlv_length. Qed.
Lemma problem_few : few_vars problem_ctx.
Proof. intros l tl H. cbn in H. apply bind_Ok in H as (x & _ & H). apply Ok_inj in H. subst. cbn. lia. Qed.
Lemma constants_length d cs : constants_by_name d = Ok cs -> length cs <= length d.
Proof.
  unfold constants_by_name. intros H. apply bind_Ok in H as (l & M & H). apply Ok_inj in H. subst. apply mapR_length in M.
  pose proof (dict_of_list_length String.eqb l). lia.
Qed.

(** ** the parts of a domain *)
Lemma skeleton_size s p : atomic_formula_skeleton s = Ok p -> size_head p <= tokens s.
Proof.
  destruct s as [|[|[[]|] vs]]; try discriminate. cbn [atomic_formula_skeleton]. intros H. rewrite tokens_group.
  apply bind_Ok in H as (tl & T & H). apply bind_Ok in H as (vars & V & H). apply bind_Ok in H as (q & Q & H). apply mk_pred_Ok in Q. subst.
  apply Ok_inj in H. subst. unfold size_head. cbn [snd]. rewrite map_length. apply tlv_length in T. apply vars_length in V. pose proof (length_tokens vs). lia.
Qed.
Lemma function_size s p : atomic_function_skeleton s = Ok p -> size_head p <= tokens s.
Proof.
  destruct s as [|[|[[]|] vs]]; try discriminate. cbn [atomic_function_skeleton]. intros H. rewrite tokens_group.
  apply bind_Ok in H as (tl & T & H). destruct (String.eqb s "total-cost"). { apply Ok_inj in H. subst. cbn. lia. }
  apply bind_Ok in H as (vars & V & H). apply bind_Ok in H as (q & Q & H). apply mk_numfun_Ok in Q. subst.
  apply Ok_inj in H. subst. unfold size_head. cbn [snd]. rewrite map_length. apply tlv_length in T. apply vars_length in V. pose proof (length_tokens vs). lia.
Qed.
Lemma written_functions_tokens l out : written_functions l out -> sum (fun x => tokens (fst x)) out <= all_tokens l.
Proof.
  assert (M : forall items (ty : option string), sum (fun x => tokens (fst x)) (map (fun s => (s, ty)) items) = all_tokens items).
  { intros items ty. unfold all_tokens, sum. induction items; cbn; auto. }
  induction 1; unfold all_tokens in *; rewrite ?sum_app.
  - rewrite M. auto.
  - rewrite M. unfold all_tokens. cbn [sum fold_right]. unfold sum in *. lia.
Qed.
Lemma functions_size l fs : functions_section l = Ok fs -> sum (fun f => size_head (fst f)) fs <= all_tokens l.
Proof.
  intros H. pose proof H as H0. unfold functions_section in H0. destruct l as [|a l]; [discriminate|]. apply bind_Ok in H0 as (toks & T & _).
  destruct (tlf_written _ _ T) as (out & W). pose proof (functions_In _ _ _ H W) as F. apply written_functions_tokens in W.
  eapply Nat.le_trans; [|exact W]. clear - F. unfold sum. induction F as [|x f out fs [E _] F IH]; cbn [fold_right]; auto. apply function_size in E. lia.
Qed.
Lemma replace_length m ts ts' : mapR (replace_term m) ts = Ok ts' -> length ts' = length ts.
Proof. apply mapR_length. Qed.
Lemma update_size f : forall m f', update_type_tags m f = Ok f' -> size f' <= size f.
Proof.
  induction f using form_ind'; intros m f' E; cbn [update_type_tags] in E; try discriminate.
  - apply bind_Ok in E as (ts' & M & E). apply mk_pred_Ok in E. subst. apply mapR_length in M. cbn. lia.
  - apply bind_Ok in E as (l' & _ & E). apply bind_Ok in E as (r' & _ & E). apply mk_eq_Ok in E. subst. cbn. lia.
  - apply bind_Ok in E as (ts' & M & E). apply mk_numfun_Ok in E. subst. apply mapR_length in M. cbn. lia.
  - apply Ok_inj in E. subst. cbn. lia.
  - apply bind_Ok in E as (ops' & M & E). apply Ok_inj in E. subst.
    apply (ops_size _ size (CFun k) ops ops' M). eapply Forall_impl; [|exact H]. intros g Hg y. apply Hg.
  - apply bind_Ok in E as (ops' & M & E). apply Ok_inj in E. subst.
    apply (ops_size _ size (CBin k) ops ops' M). eapply Forall_impl; [|exact H]. intros g Hg y. apply Hg.
  - apply bind_Ok in E as (g' & M & E). apply Ok_inj in E. subst. apply IHf in M. cbn. lia.
  - apply bind_Ok in E as (g' & M & E). apply Ok_inj in E. subst. apply IHf in M. cbn [mk_quant size]. pose proof (length_dedup var_eqb vs). lia.
Qed.
Lemma derived_size l st st' x : derived_def l st = (st', Ok x) -> size_derived x <= all_tokens l.
Proof.
  destruct l as [|h [|b [|]]]; try discriminate. cbn [derived_def]. intros H.
  apply bindM_Ok in H as (st1 & head & H1 & H). apply ret_Ok in H1 as [-> H1]. apply bindM_Ok in H as (st2 & cond & H2 & H).
  unfold reads in *. inversion H2 as [[E1 E2]]. subst st2. inversion H as [[E3 E4]]. subst st'. clear H H2.
  apply skeleton_size in H1. apply (gd_size _ (domain_few st)) in E2. unfold derived_callback in E4.
  destruct (dict_get String.eqb (fst head) (s_predicates st)) as [def|]; [|discriminate].
  apply bind_Ok in E4 as ([] & _ & E4). apply bind_Ok in E4 as (m & _ & E4). apply bind_Ok in E4 as (p & P & E4). apply bind_Ok in E4 as (c' & C & E4).
  apply update_size in C. apply update_size in P. destruct p; try discriminate. apply Ok_inj in E4. subst. unfold size_derived, size_head, all_tokens in *. cbn in *. lia.
Qed.
Lemma action_size l st st' a : action_def l st = (st', Ok a) -> size_action a <= all_tokens l.
Proof.
  intros H. apply action_def_st in H as (n & ps & body & vs & b & -> & P & B & A).
  unfold mk_action in A. apply bind_Ok in A as (n' & _ & A). apply Ok_inj in A. subst a.
  apply action_body_inv in B as (x & y & -> & X & Y). apply (emptyor_pregd_size _ (domain_few _)) in X. apply (emptyor_effect_size _ (domain_few _)) in Y.
  unfold action_parameters in P. apply bindM_Ok in P as (st1 & tl & T & P). apply ret_Ok in T as [-> T]. apply bindM_Ok in P as (st2 & vars & V & P). apply ret_Ok in V as [-> V].
  cbv zeta in P. apply bindM_Ok in P as (st3 & u & _ & P). apply ret_Ok in P as [-> P]. apply Ok_inj in P. subst vs.
  unfold size_action, all_tokens. cbn [a_params a_pre a_eff size_opt sum fold_right]. rewrite map_length, tokens_list.
  pose proof (dict_of_list_length String.eqb (combine (map fst tl) vars)) as D. rewrite combine_length, map_length in D.
  apply tlv_length in T. pose proof (length_tokens ps). pose proof (Nat.le_min_l (length tl) (length vars)). lia.
Qed.
Definition size_def (x : action + derived) : nat := match x with inl a => size_action a | inr d => size_derived d end.
Lemma definition_size s st st' x : structure_def s st = (st', Ok x) -> size_def x <= tokens s.
Proof.
  destruct s as [|[|k body]]; try discriminate. cbn [structure_def]. rewrite tokens_list. unfold all_tokens. cbn [sum fold_right].
  destruct (is_kw ":action" k); [|destruct (is_kw ":derived" k); [|discriminate]]; intros H; apply bindM_Ok in H as (st1 & y & Y & H);
    apply ret_Ok in H as [-> H]; apply Ok_inj in H; subst x; cbn [size_def].
  - apply action_size in Y. unfold all_tokens, sum in *. lia.
  - apply derived_size in Y. unfold all_tokens, sum in *. lia.
Qed.
Lemma definitions_size l st st' xs : mapM structure_def l st = (st', Ok xs) -> sum size_def xs <= all_tokens l.
Proof.
  intros H. apply mapM_runs in H. unfold all_tokens. induction H as [|st x st1 y l ys st2 E R IH]; auto. apply definition_size in E. cbn [sum fold_right]. unfold sum in *. lia.
Qed.
Lemma split_size xs : sum size_derived (flat_map (fun x : action + derived => match x with inl _ => [] | inr d => [d] end) xs)
  + sum size_action (flat_map (fun x : action + derived => match x with inl a => [a] | inr _ => [] end) xs) = sum size_def xs.
Proof. unfold sum. induction xs as [|[a|d] xs IH]; cbn in *; auto; lia. Qed.
Lemma opt_section_tokens k o : all_tokens (opt_section k o) = match o with Some l => 3 + all_tokens l | None => 0 end.
Proof. destruct o; [|reflexivity]. cbn [opt_section]. unfold all_tokens at 1. cbn [sum fold_right]. unfold section_sx. rewrite tokens_group. lia. Qed.
Lemma optM_Ok {A} (f : list sexp -> M A) o st st' r : optM f o st = (st', Ok r) ->
  match o with Some l => exists a, f l st = (st', Ok a) /\ r = Some a | None => r = None end.
Proof.
  destruct o; cbn [optM]; intros H.
  - apply bindM_Ok in H as (st1 & a & F & H). apply ret_Ok in H as [-> H]. apply Ok_inj in H. eauto.
  - apply ret_Ok in H as [_ H]. now apply Ok_inj in H.
Qed.
Lemma require_keys_length l rs : require_keys l = Ok rs -> length rs <= all_tokens l.
Proof.
  unfold require_keys. destruct l as [|a l]; [discriminate|]. intros H. apply of_opt_Ok' in H.
  assert (E : length rs = length (a :: l)). { revert rs H. induction (a :: l) as [|x m IH]; cbn; intros rs H; [now inversion H|].
    destruct (require_key x); [|discriminate]. destruct (mapO require_key m) eqn:E; [|discriminate]. inversion H; subst. cbn. f_equal. now apply IH. }
  rewrite E. apply length_tokens.
Qed.
Lemma types_size ty rs t : mk_types ty rs false = Ok t -> length t <= length (match ty with Some d => d | None => [] end).
Proof.
  unfold mk_types, to_types. intros H. apply bind_Ok in H as (x & H & K). apply bind_Ok in K as ([] & _ & K). apply Ok_inj in K. subst.
  apply bind_Ok in H as (l & M & H). apply Ok_inj in H. subst. apply mapR_length in M. pose proof (dict_of_list_length String.eqb l). lia.
Qed.
Lemma domain_size s st st' d : parse_domain s st = (st', Ok d) -> size_domain d <= String.length s.
Proof.
  intros H. apply parse_domain_inv in H as (n & l0 & T & H). apply text_tokens in T.
  apply domain_rule_inv in H as (o1 & l1 & st1 & rs & o2 & l2 & st2 & ty & o3 & l3 & st3 & cs & o4 & l4 & st4 & ps & o5 & l5 & fs & st6 & xs
    & S1 & R1 & S2 & R2 & S3 & R3 & S4 & R4 & S5 & R5 & D & _ & K).
  apply section_inv in S1, S2, S3, S4, S5. subst l0 l1 l2 l3 l4.
  apply mk_domain_inv in K as (_ & _ & Er & Et & _ & Ec & Ep & Ed & Ef & Ea & _).
  apply definitions_size in D. rewrite <- split_size in D. apply types_size in Et.
  apply optM_Ok in R1, R2, R3, R4, R5.
  assert (B1 : length (opt_list rs) <= all_tokens (opt_section ":requirements" o1)).
  { rewrite opt_section_tokens. destruct o1 as [l|]; [|subst; auto]. destruct R1 as (a & F & ->). unfold requirements in F.
    apply bindM_Ok in F as (s1 & r & F1 & F). apply ret_Ok in F1 as [-> F1]. apply bindM_Ok in F as (s2 & [] & _ & F). apply ret_Ok in F as [_ F]. apply Ok_inj in F. subst.
    apply require_keys_length in F1. pose proof (length_dedup req_eqb r). cbn [opt_list]. lia. }
  assert (B2 : length (match ty with Some d => d | None => [] end) <= all_tokens (opt_section ":types" o2)).
  { rewrite opt_section_tokens. destruct o2 as [l|]; [|subst; auto]. destruct R2 as (a & F & ->). unfold types_section in F.
    apply bindM_Ok in F as (s1 & r & F1 & F). apply ret_Ok in F1 as [-> F1]. apply bindM_Ok in F as (s2 & [] & _ & F). cbv zeta in F.
    apply bindM_Ok in F as (s3 & [] & _ & F). apply bindM_Ok in F as (s4 & [] & _ & F). apply ret_Ok in F as [_ F]. apply Ok_inj in F. subst.
    rewrite map_length. apply tln_length in F1. pose proof (length_tokens l). lia. }
  assert (B3 : length (opt_list cs) <= all_tokens (opt_section ":constants" o3)).
  { rewrite opt_section_tokens. destruct o3 as [l|]; [|subst; auto]. destruct R3 as (a & F & ->). unfold constants_section in F.
    apply bindM_Ok in F as (s1 & r & F1 & F). apply ret_Ok in F1 as [-> F1]. apply bindM_Ok in F as (s2 & k & F2 & F). apply ret_Ok in F2 as [-> F2].
    apply bindM_Ok in F as (s4 & [] & _ & F). apply ret_Ok in F as [_ F]. apply Ok_inj in F. subst. cbn [opt_list].
    rewrite map_length. apply tln_length in F1. apply constants_length in F2. pose proof (length_tokens l). lia. }
  assert (B4 : sum size_head (opt_list ps) <= all_tokens (opt_section ":predicates" o4)).
  { rewrite opt_section_tokens. destruct o4 as [l|]; [|subst; auto]. destruct R4 as (a & F & ->). unfold predicates_section in F.
    apply bindM_Ok in F as (s1 & r & F1 & F). apply ret_Ok in F1 as [-> F1]. apply bindM_Ok in F as (s4 & [] & _ & F). apply ret_Ok in F as [_ F]. apply Ok_inj in F. subst. cbn [opt_list].
    destruct l as [|x l]; [discriminate|]. pose proof (sum_le _ tokens size_head (x :: l) (fun y _ => skeleton_size y) _ F1). unfold all_tokens. lia. }
  assert (B5 : sum (fun f => size_head (fst f)) (opt_list fs) <= all_tokens (opt_section ":functions" o5)).
  { rewrite opt_section_tokens. destruct o5 as [l|]; [|subst; auto]. destruct R5 as (a & F & ->). apply ret_Ok in F as [_ F]. apply functions_size in F. cbn [opt_list]. lia. }
  unfold size_domain. rewrite Er, Ec, Ep, Ed, Ef, Ea.
  pose proof (length_dedup req_eqb (opt_list rs)). pose proof (length_dedup const_eqb (opt_list cs)). pose proof (sum_dedup size_head atom_eqb (opt_list ps)).
  match goal with |- context [dedup derived_eqb ?l] => pose proof (sum_dedup size_derived derived_eqb l) end.
  match goal with |- context [dedup action_eqb ?l] => pose proof (sum_dedup size_action action_eqb l) end.
  unfold all_tokens in *. cbn [sum fold_right] in T. unfold name_sx in T. rewrite tokens_group in T. unfold all_tokens in T. cbn [sum fold_right] in T. rewrite tokens_group in T.
  fold (sum tokens) in T.
  match type of T with context [fold_right (fun x n => tokens x + n) 0 ?l] => change (fold_right (fun x n => tokens x + n) 0 l) with (sum tokens l) in T end.
  rewrite !sum_app in T. lia.
Qed.

(** ** problems and plans *)
Lemma words_length args ns : mapO word args = Some ns -> length ns = length args.
Proof.
  revert ns. induction args as [|x m IH]; cbn; intros ns H; [now inversion H|].
  destruct (word x); [|discriminate]. destruct (mapO word m) eqn:E; [|discriminate]. inversion H; subst. cbn. f_equal. now apply IH.
Qed.
Lemma basic_size s f : basic_function_term s = Ok f -> size f <= tokens s.
Proof.
  destruct s as [[]|[|[[]|] args]]; try discriminate; cbn [basic_function_term]; intros H.
  - apply mk_numfun_Ok in H. subst. cbn. auto.
  - rewrite tokens_group. apply bind_Ok in H as (ns & N & H). apply bind_Ok in H as (ts & M & H). apply mk_numfun_Ok in H. subst.
    apply of_opt_Ok' in N. apply words_length in N. apply mapR_length in M. pose proof (length_tokens args). cbn. lia.
Qed.
Lemma atom_size objs s f : atomic_formula_name objs s = Ok f -> size f <= tokens s.
Proof.
  destruct s as [[]|[|[[]|] args]]; try discriminate; cbn [atomic_formula_name]; intros H.
  rewrite tokens_group. apply bind_Ok in H as (ns & N & H). apply bind_Ok in H as (ts & M & H). apply mk_pred_Ok in H. subst.
  apply of_opt_Ok' in N. apply words_length in N. apply mapR_length in M. pose proof (length_tokens args). cbn. lia.
Qed.
Lemma init_size objs s f : init_el objs s = Ok f -> size f <= tokens s.
Proof.
  destruct s as [[]|[|[[]|] args]]; try discriminate; intros H.
  - cbn [init_el] in H. destruct (String.eqb s "not"); [|now apply (atom_size objs)]. destruct args as [|x [|]]; try discriminate.
    apply bind_Ok in H as (g & G & H). apply Ok_inj in H. subst. apply atom_size in G. rewrite tokens_group. unfold all_tokens. cbn. lia.
  - cbn [init_el] in H. destruct args as [|x [|[[]|] [|]]]; try discriminate. destruct (String.eqb s "="); [|discriminate].
    apply bind_Ok in H as (g & G & H). apply bind_Ok in H as (v & _ & H). apply Ok_inj in H. rewrite tokens_group. apply basic_size in G.
    pose proof (pair_size (CFun BEqual) x (SAtom (TNum s0)) g (FNumVal v) f G (Nat.le_refl 1) (eq_sym H)). lia.
Qed.
Lemma metric_exp_size s : forall f, metric_f_exp s = Ok f -> size f <= tokens s.
Proof.
  induction s as [t|l IH] using sexp_ind'; intros f H.
  - destruct t; try discriminate; [apply (basic_size _ f H)|]. cbn in H. inversion H; subst. cbn. auto.
  - destruct l as [|[[]|] args]; try discriminate; [apply (basic_size _ f H)|].
    cbn [metric_f_exp] in H. destruct (arith_op s (length args)); [|discriminate]. apply bind_Ok in H as (ops & M & H). apply Ok_inj in H. subst.
    inversion IH as [|? ? _ IH']; subst. rewrite tokens_group. pose proof (ops_size metric_f_exp tokens (CFun b) args ops M IH'). unfold mk_binfun, all_tokens. lia.
Qed.
Lemma problem_size s p : parse_problem s = Ok p -> size_problem p <= String.length s.
Proof.
  intros H. apply parse_problem_inv in H as (n & dn & l & T & H). apply text_tokens in T.
  apply problem_rule_inv in H as (o1 & o2 & inits & g & o5 & rs & os & init & goal & m & -> & R & O & I & G & Me & K).
  unfold mk_problem in K. apply bind_Ok in K as (n' & _ & K). apply bind_Ok in K as (dd & _ & K). apply bind_Ok in K as (rs' & P & K).
  cbv zeta in K. apply bind_Ok in K as ([] & _ & K). apply bind_Ok in K as ([] & _ & K). apply Ok_inj in K. subst p.
  apply (gd_size _ problem_few) in G.
  assert (Bi : sum size init <= all_tokens inits) by (apply (sum_le _ tokens size inits (fun x _ => init_size _ x) init I)).
  assert (B1 : match rs' with Some r => length r | None => 0 end <= all_tokens (opt_section ":requirements" o1)).
  { rewrite opt_section_tokens. destruct o1 as [l|]; cbn [opt_res] in R.
    - apply bind_Ok in R as (r & R & E). apply Ok_inj in E. subst. apply require_keys_length in R.
      cbn in P. destruct rs'; [|lia]. inversion P; subst. pose proof (length_dedup req_eqb r). lia.
    - apply Ok_inj in R. subst. cbn in P. inversion P; subst. auto. }
  assert (B2 : length (match os with Some d => map snd d | None => [] end) <= all_tokens (opt_section ":objects" o2)).
  { rewrite opt_section_tokens. destruct o2 as [l|]; cbn [opt_res] in O.
    - apply bind_Ok in O as (r & O & E). apply Ok_inj in E. subst. unfold objects_section in O. apply bind_Ok in O as (x & X & O).
      apply tln_length in X. apply constants_length in O. rewrite map_length. pose proof (length_tokens l). lia.
    - apply Ok_inj in O. subst. auto. }
  assert (B5 : match m with Some m => 1 + size (me_expr m) | None => 0 end <= all_tokens (opt_section ":metric" o5)).
  { rewrite opt_section_tokens. destruct o5 as [l|]; cbn [opt_res] in Me.
    - apply bind_Ok in Me as (r & X & E). apply Ok_inj in E. subst. destruct l as [|[[]|] [|e [|]]]; try discriminate. unfold metric_spec in X.
      destruct (memb String.eqb s0 ["maximize"; "minimize"]); [|discriminate]. apply bind_Ok in X as (f & F & X).
      unfold mk_metric in X. apply bind_Ok in X as ([] & _ & X). apply Ok_inj in X. subst. apply metric_exp_size in F. unfold all_tokens. cbn in *. lia.
    - apply Ok_inj in Me. subst. auto. }
  unfold size_problem. cbn [p_reqs p_objects p_init p_goal p_metric].
  pose proof (sum_dedup size form_eqb init). match goal with |- context [dedup const_eqb ?l] => pose proof (length_dedup const_eqb l) end.
  unfold all_tokens, name_sx, problem_sections in *. cbn [sum fold_right] in T. rewrite tokens_group in T. unfold all_tokens in T. cbn [sum fold_right] in T. rewrite !tokens_group in T.
  match type of T with context [fold_right (fun x n => tokens x + n) 0 ?l] => change (fold_right (fun x n => tokens x + n) 0 l) with (sum tokens l) in T end.
  rewrite !sum_app in T. cbn [sum fold_right] in T. unfold section_sx in T. rewrite !tokens_group in T. unfold all_tokens in T. cbn [sum fold_right] in T.
  unfold section_sx in *. unfold sum in *. lia.
Qed.
Lemma plan_size s pl : parse_plan s = Ok pl -> size_plan pl <= String.length s.
Proof.
  unfold parse_plan. destruct (read_text s) as [l|] eqn:T; [|discriminate]. intros H. apply text_tokens in T. eapply Nat.le_trans; [|exact T].
  unfold size_plan, all_tokens. apply (sum_le ground_action tokens _ l); auto. intros x _ [n cs] E.
  destruct x as [[]|[|[[]|] args]]; try discriminate; cbn [ground_action] in E. rewrite tokens_group.
  apply bind_Ok in E as (ns & N & E). apply bind_Ok in E as (ts & M & E). apply Ok_inj in E. inversion E; subst. cbn [snd]. rewrite map_length.
  apply of_opt_Ok' in N. apply words_length in N. apply mapR_length in M. pose proof (length_tokens args). lia.
Qed.
