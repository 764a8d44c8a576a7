(** Facts: the grammar rules and callbacks do not look at names (C70). *)
From Coq Require Import String Ascii List Bool Arith NArith Lia.
From Verif Require Import Py Names Reqs Logic Validation Core Lexer TypedList UpdateTags Parser Spec_Rename Py_facts Logic_facts GD_facts Rename_facts RenameText_facts.
Import ListNotations.
Open Scope string_scope.
Open Scope list_scope.

Lemma of_opt_nat {A B} (g : A -> B) o : of_opt (option_map g o) = rmap g (of_opt o).
Proof. now destruct o. Qed.
Lemma except_nat {A B} (g : A -> B) x e : except_value (rmap g x) e = rmap g (except_value x e).
Proof. destruct x as [|[]]; reflexivity. Qed.
Lemma mapO_nat {A B C D} (f : A -> option B) (f' : C -> option D) (g : A -> C) (h : B -> D) l :
  (forall x, f' (g x) = option_map h (f x)) -> mapO f' (map g l) = option_map (map h) (mapO f l).
Proof. intros H. induction l as [|x l IH]; cbn; auto. rewrite H, IH. destruct (f x); cbn; auto. now destruct (mapO f l). Qed.

(** ** typed lists *)
Section Typed.
  Context {A B : Type} (e : A -> A -> bool) (e' : B -> B -> bool) (g : A -> B) (pi : A -> res A) (pi' : B -> res B).
  Variable r : string -> string.
  Hypothesis R : renaming r.
  Hypothesis G : forall a b, e' (g a) (g b) = e a b.
  Hypothesis PI : forall a, pi' (g a) = rmap g (pi a).
  Definition ritem (x : titem A) : titem B := match x with IItem a => IItem (g a) | ISep => ISep | ITypes gs => ITypes (map r gs) end.
  Definition rpair (kv : A * list string) : B * list string := (g (fst kv), map r (snd kv)).
  Definition rix (ix : tindex (A := A)) : tindex (A := B) := mkIndex (map rpair (ti_items ix)) (map rpair (ti_seq ix)).
  Notation seqb := (req r R).
  Lemma get_ix a ix : dict_get e' (g a) (ti_items (rix ix)) = option_map (map r) (dict_get e a (ti_items ix)).
  Proof. apply (dict_get_nat e e' g G (map r)). Qed.
  Lemma get_ix' a ix : match dict_get e' (g a) (ti_items (rix ix)) with Some gs => gs | None => [] end
     = map r (match dict_get e a (ti_items ix) with Some gs => gs | None => [] end).
  Proof. rewrite get_ix. now destruct (dict_get e a (ti_items ix)). Qed.
  Lemma add_item_nat dup ix a tags : add_item e' dup (rix ix) (g a) (map r tags) = rmap rix (add_item e dup ix a tags).
  Proof.
    unfold add_item. 
    assert (E : (if dup then Ok tt else check_item_name_already_present e' (rix ix) (g a) ;; check_tags_already_present e' (rix ix) (g a) (map r tags))
      = (if dup then Ok tt else check_item_name_already_present e ix a ;; check_tags_already_present e ix a tags)).
    { destruct dup; auto. unfold check_item_name_already_present, check_tags_already_present, dict_has. rewrite get_ix', get_ix.
      apply bind_eq; [now destruct (dict_get e a (ti_items ix))|]. do 2 f_equal.
      generalize (match dict_get e a (ti_items ix) with Some gs => gs | None => [] end) as ex. intros ex.
      induction tags as [|x tags IH]; cbn; auto. now rewrite (memb_nat String.eqb String.eqb r seqb), IH. }
    rewrite E. apply bind_same. intros [] _.
    assert (E2 : check_item_types e' (rix ix) (g a) (map r tags) = check_item_types e ix a tags).
    { unfold check_item_types. rewrite get_ix. destruct (dict_get e a (ti_items ix)); cbn; auto. now rewrite (set_eqb_nat String.eqb String.eqb r seqb). }
    rewrite E2. apply bind_same. intros [] _. cbn [rmap]. f_equal. unfold add_item_unchecked. rewrite get_ix', (union_nat String.eqb String.eqb r seqb).
    unfold rix. cbn [ti_items ti_seq]. f_equal; [|now rewrite map_app]. apply (dict_set_nat e e' g G (map r)).
  Qed.
  Lemma add_lists_nat dup items tags : forall ix, add_typed_lists e' pi' dup (rix ix) (map ritem items) (map r tags) = rmap rix (add_typed_lists e pi dup ix items tags).
  Proof.
    induction items as [|x items IH]; intros ix; cbn [map add_typed_lists]; auto. destruct x as [a| |gs]; auto. cbn [ritem].
    rewrite PI. apply rmap_bind. intros a' _. rewrite (mapR_nat' parse_type parse_type r r) by apply (parse_type_nat r R).
    apply rmap_bind. intros tags' _. rewrite (dedup_nat String.eqb String.eqb r seqb), add_item_nat. apply rmap_bind. intros ix' _. apply IH.
  Qed.
  Lemma find_sep_nat l : forall n, find_sep n (map ritem l) = find_sep n l.
  Proof. induction l as [|[] l IH]; intros n; cbn; auto. Qed.
  Lemma sep_index_nat n l : sep_index n (map ritem l) = sep_index n l.
  Proof. unfold sep_index. rewrite skipn_map. apply find_sep_nat. Qed.
  Lemma slice_nat s n l : slice s n (map ritem l) = map ritem (slice s n l).
  Proof. unfold slice. now rewrite skipn_map, firstn_map. Qed.
  Lemma typed_loop_nat fuel dup tokens : forall ix st, typed_loop e' pi' fuel dup (map ritem tokens) (rix ix) st = rmap rix (typed_loop e pi fuel dup tokens ix st).
  Proof.
    induction fuel as [|fuel IH]; intros ix st; cbn [typed_loop]; auto. rewrite sep_index_nat. destruct (sep_index st tokens) as [sep|].
    - rewrite nth_error_map. destruct (nth_error tokens (sep + 1)) as [[a| |gs]|]; cbn [option_map ritem]; auto.
      rewrite slice_nat, (dedup_nat String.eqb String.eqb r seqb), add_lists_nat. apply rmap_bind. intros ix' _. apply IH.
    - rewrite map_length. destruct (Nat.eqb st (length tokens)); auto. rewrite slice_nat. apply (add_lists_nat dup _ []).
  Qed.
  Lemma parse_typed_list_nat tokens dup : parse_typed_list e' pi' (map ritem tokens) dup = rmap rix (parse_typed_list e pi tokens dup).
  Proof.
    unfold parse_typed_list. rewrite sep_index_nat, map_length. change (mkIndex (A := B) [] []) with (rix (mkIndex [] [])).
    destruct (sep_index 0 tokens); [apply typed_loop_nat|]. rewrite slice_nat. apply (add_lists_nat dup _ []).
  Qed.
  Lemma names_of_nat ix : typed_list_of_names (rix ix) = rmap (map (fun kv => (g (fst kv), option_map r (snd kv)))) (typed_list_of_names ix).
  Proof. apply mapR_nat'. intros [a [|x [|y l]]]; reflexivity. Qed.
End Typed.

Section Rename.
  Variable r : string -> string.
  Hypothesis R : renaming r.
  Notation rvar := (ren_var r). Notation rterm := (ren_term r). Notation rform := (ren_form r). Notation rs := (rs r).
  Notation seqb := (req r R).
  Lemma kw a w : memb String.eqb w ("number" :: all_symbols) = true -> String.eqb (r a) w = String.eqb a w.
  Proof.
    intros M. apply (req_word r R). unfold memb in M. apply existsb_exists in M as (x & I & E). apply String.eqb_eq in E. now subst.
  Qed.
  Definition rnames (p : string * list string) : string * list string := (r (fst p), map r (snd p)).
  Definition rtyped (p : string * option string) : string * option string := (r (fst p), option_map r (snd p)).

  Lemma word_nat s : Parser.word (rs s) = option_map r (Parser.word s).
  Proof. destruct s as [[]|]; reflexivity. Qed.
  Lemma words_nat l : mapO Parser.word (map rs l) = option_map (map r) (mapO Parser.word l).
  Proof. apply mapO_nat, word_nat. Qed.
  Lemma type_def_nat s : type_def (rs s) = option_map (map r) (type_def s).
  Proof.
    destruct s as [[]|[|[[]|] ts]]; try reflexivity. cbn [rs RenameText_facts.rs map rt type_def]. rewrite kw by reflexivity.
    destruct (String.eqb s "either"); auto. destruct ts as [|t ts]; auto. exact (words_nat (t :: ts)).
  Qed.
  Notation ritem := (ritem (A := string) r r).
  Lemma tl_vars_nat : forall n l seen, length l <= n -> tl_vars seen (map rs l) = option_map (map ritem) (tl_vars seen l).
  Proof.
    induction n as [|n IH]; intros l seen L; [destruct l; [reflexivity|cbn in L; lia]|].
    destruct l as [|a l]; [reflexivity|]. destruct a as [[]|]; try reflexivity; destruct l as [|b l]; try reflexivity.
    - destruct b as [[]|]; try reflexivity. cbn [map rs RenameText_facts.rs rt tl_vars]. rewrite IH by (cbn in *; lia).
      now destruct (tl_vars true l).
    - cbn [map]. change (rs (SAtom (TOp s))) with (SAtom (TOp s)). cbn [tl_vars]. destruct (String.eqb s "-" && seen); auto.
      rewrite type_def_nat. destruct (type_def b); cbn [option_map]; auto. rewrite IH by (cbn in *; lia). now destruct (tl_vars false l).
  Qed.
  Lemma object_next_nat l : object_next (map rs l) = object_next l.
  Proof.
    destruct l as [|[[]|] l]; try reflexivity. cbn [map rs RenameText_facts.rs rt object_next].
    assert (E : r "object" = "object") by (apply (rn_words r R); right; cbn; tauto). rewrite <- E at 1. apply (req r R).
  Qed.
  Lemma tl_names_nat : forall n l seen, length l <= n -> tl_names seen (map rs l) = option_map (map ritem) (tl_names seen l).
  Proof.
    induction n as [|n IH]; intros l seen L; [destruct l; [reflexivity|cbn in L; lia]|].
    destruct l as [|a l]; [reflexivity|]. destruct a as [[]|]; try reflexivity.
    - cbn [map rs RenameText_facts.rs rt tl_names]. rewrite IH by (cbn in *; lia). now destruct (tl_names true l).
    - destruct l as [|[[]|] l]; try reflexivity. cbn [map rs RenameText_facts.rs rt tl_names]. rewrite object_next_nat. destruct (String.eqb s "-" && seen && negb (object_next l)); auto.
      rewrite IH by (cbn in *; lia). now destruct (tl_names false l).
  Qed.
  Lemma tlv_nat l : typed_list_variable (map rs l) = rmap (map rnames) (typed_list_variable l).
  Proof.
    unfold typed_list_variable. rewrite (tl_vars_nat (length l)) by lia. rewrite of_opt_nat. apply rmap_bind. intros ts _.
    rewrite <- except_nat. f_equal. rewrite (parse_typed_list_nat String.eqb String.eqb r parse_name parse_name r R seqb (parse_name_nat r R)).
    now apply rmap_bind.
  Qed.
  Lemma tln_nat l : typed_list_name (map rs l) = rmap (map rtyped) (typed_list_name l).
  Proof.
    unfold typed_list_name. rewrite (tl_names_nat (length l)) by lia. rewrite of_opt_nat. apply rmap_bind. intros ts _.
    rewrite <- except_nat. f_equal. rewrite (parse_typed_list_nat String.eqb String.eqb r parse_name parse_name r R seqb (parse_name_nat r R)).
    apply rmap_bind. intros ix _. apply names_of_nat.
  Qed.
  Lemma mk_vars_nat l : mk_vars (map rnames l) = rmap (map rvar) (mk_vars l).
  Proof. apply mapR_nat'. intros [n gs]. apply (mk_var_nat r R n (CSet gs)). Qed.

  (** ** conditions *)
  Record ctx_rel (c c' : gctx) : Prop := mkRel {
    cr_ext : g_ext c' = g_ext c;
    cr_params : g_params c' = map (fun kv => (r (fst kv), rvar (snd kv))) (g_params c);
    cr_const : forall n, g_const c' (r n) = rmap rterm (g_const c n);
    cr_vars : forall l, g_vars c' (map rs l) = rmap (map rnames) (g_vars c l) }.
  Definition rpt (t : pterm) : pterm := match t with PConst n => PConst (r n) | PVar n => PVar (r n) end.
  Definition rrt (t : term + string) : term + string := match t with inl k => inl (rterm k) | inr n => inr (r n) end.
  Lemma terms_nat : forall n l, length l <= n -> terms (map rs l) = option_map (map rpt) (terms l).
  Proof.
    induction n as [|n IH]; intros l L; [destruct l; [reflexivity|cbn in L; lia]|].
    destruct l as [|a l]; [reflexivity|]. destruct a as [[]|]; try reflexivity.
    - destruct l as [|[[]|] l]; try reflexivity. cbn [map rs RenameText_facts.rs rt terms]. rewrite IH by (cbn in *; lia). now destruct (terms l).
    - cbn [map rs RenameText_facts.rs rt terms]. rewrite IH by (cbn in *; lia). now destruct (terms l).
  Qed.
  Section Ctx.
    Variables c c' : gctx.
    Hypothesis C : ctx_rel c c'.
    Lemma resolve_nat t : resolve c' (rpt t) = rmap rrt (resolve c t).
    Proof. destruct t; cbn; auto. rewrite (cr_const _ _ C). now apply rmap_bind. Qed.
    Lemma cov_nat t : constant_or_variable c' (rrt t) = rmap rterm (constant_or_variable c t).
    Proof.
      destruct t as [k|n]; cbn [rrt constant_or_variable]; auto.
      rewrite (cr_params _ _ C), (dict_get_nat String.eqb String.eqb r seqb rvar). destruct (dict_get String.eqb n (g_params c)); cbn [option_map]; auto.
      change (CList []) with (ren_coll r (CList [])) at 1. rewrite (mk_var_nat r R). now apply rmap_bind.
    Qed.
    Lemma atomic_pred_nat n args : atomic_pred c' (r n) (map rs args) = rmap rform (atomic_pred c n args).
    Proof.
      unfold atomic_pred. rewrite (terms_nat (length args)) by lia. rewrite of_opt_nat. apply rmap_bind. intros ps _.
      rewrite (mapR_nat' (resolve c) _ _ rrt) by apply resolve_nat. apply rmap_bind. intros q _.
      rewrite (mapR_nat' (constant_or_variable c) _ _ rterm) by apply cov_nat. apply rmap_bind. intros ts _. apply (mk_pred_nat r R).
    Qed.
    Lemma atomic_eq_nat args : atomic_eq c' (map rs args) = rmap rform (atomic_eq c args).
    Proof.
      unfold atomic_eq. rewrite (terms_nat (length args)) by lia. destruct (terms args) as [[|a [|b [|]]]|]; cbn [option_map map]; auto.
      rewrite !resolve_nat. apply rmap_bind. intros ra _. apply rmap_bind. intros rb _. rewrite (cr_ext _ _ C). apply bind_same. intros [] _.
      rewrite cov_nat. apply rmap_bind. intros x _. rewrite cov_nat. apply rmap_bind. intros y _. apply (mk_eq_nat r R).
    Qed.
    Lemma aft_nat s : atomic_formula_term c' (rs s) = rmap rform (atomic_formula_term c s).
    Proof.
      destruct s as [t|[|[[]|] args]]; try reflexivity.
      - apply atomic_pred_nat.
      - cbn [RenameText_facts.rs map rt atomic_formula_term]. destruct (String.eqb s "="); auto. apply atomic_eq_nat.
    Qed.
    Lemma f_head_nat s : f_head c' (rs s) = rmap rform (f_head c s).
    Proof.
      destruct s as [[]|[|[[]|] args]]; try reflexivity.
      - apply (mk_numfun_nat r R s []).
      - cbn [RenameText_facts.rs map rt f_head]. rewrite (terms_nat (length args)) by lia. rewrite of_opt_nat. apply rmap_bind. intros ps _.
        rewrite (mapR_nat' (resolve c) _ _ rrt) by apply resolve_nat. apply rmap_bind. intros q _.
        rewrite (mapR_nat' (constant_or_variable c) _ _ rterm) by apply cov_nat. apply rmap_bind. intros ts _. apply (mk_numfun_nat r R).
    Qed.
    Lemma f_exp_nat s : f_exp c' (rs s) = rmap rform (f_exp c s).
    Proof.
      induction s as [t|l IH] using sexp_ind'.
      - destruct t; try apply (f_head_nat (SAtom _)). cbn. now destruct (num_literal s).
      - destruct l as [|a args]; [apply (f_head_nat (SList []))|]. inversion IH as [|? ? _ IHa]; subst.
        destruct a as [[]|]; try apply (f_head_nat (SList (_ :: _))). cbn [RenameText_facts.rs map rt f_exp]. rewrite map_length.
        destruct (arith_op s (length args)); auto. rewrite (mapR_nat (f_exp c) _ _ rform) by auto. apply rmap_bind. intros ops _. cbn [rmap].
        now rewrite (mk_binfun_nat r R).
    Qed.
    Lemma starts_nat l : starts_term (map rs l) = starts_term l.
    Proof. destruct l as [|[[]|] l]; reflexivity. Qed.
    Ltac kws := rewrite ?kw by reflexivity.
    Lemma gd_nat s : gd c' (rs s) = rmap rform (gd c s).
    Proof.
      induction s as [t|l IH] using sexp_ind'; [reflexivity|]. destruct l as [|a args]; [reflexivity|]. inversion IH as [|? ? _ IHa]; subst. clear IH.
      assert (M : mapR (gd c') (map rs args) = rmap (map rform) (mapR (gd c) args)) by now apply mapR_nat.
      destruct a as [[]|]; try reflexivity; cbn [RenameText_facts.rs map rt gd].
      - rename s into w. kws. rewrite (cr_ext _ _ C).
        destruct (String.eqb w "or"); [|destruct (String.eqb w "not"); [|destruct (String.eqb w "and"); [|destruct (String.eqb w "imply"); [|destruct (String.eqb w "exists" || String.eqb w "forall")]]]].
        + rewrite M. apply rmap_bind. intros fs _. apply bind_same. intros [] _. cbn [rmap]. unfold mk_or. now rewrite (mk_op_nat r R).
        + destruct args as [|x [|]]; auto. cbn [map]. inversion IHa; subst. rewrite H1. now apply rmap_bind.
        + rewrite M. apply rmap_bind. intros fs _. cbn [rmap]. unfold mk_and. now rewrite (mk_op_nat r R).
        + destruct args as [|x [|y [|]]]; auto. cbn [map]. inversion IHa as [|? ? H1 H2]; subst. inversion H2 as [|? ? H3]; subst.
          rewrite H1. apply rmap_bind. intros f _. rewrite H3. apply rmap_bind. intros g _. apply bind_same. intros [] _. cbn [rmap].
          now rewrite <- (mk_bin_nat r R).
        + destruct args as [|[|vs] [|x [|]]]; try (destruct (String.eqb w "exists"); reflexivity). cbn [map].
          inversion IHa as [|? ? H1 H2]; subst. inversion H2 as [|? ? H3]; subst. destruct (String.eqb w "exists"); cbn [RenameText_facts.rs].
          * rewrite (cr_vars _ _ C). apply rmap_bind. intros tl _. rewrite H3. apply rmap_bind. intros f _. apply bind_same. intros [] _.
            rewrite mk_vars_nat. apply rmap_bind. intros vars _. cbn [rmap]. now rewrite (mk_quant_nat r R).
          * rewrite (cr_vars _ _ C). apply rmap_bind. intros tl _. rewrite H3. apply rmap_bind. intros f _. apply bind_same. intros [] _.
            rewrite mk_vars_nat. apply rmap_bind. intros vars _. cbn [rmap]. now rewrite (mk_quant_nat r R).
        + apply atomic_pred_nat.
      - rewrite starts_nat. destruct (String.eqb s "=" && starts_term args); [apply atomic_eq_nat|].
        destruct (Parser.comparison s); auto. destruct args as [|x [|y [|]]]; auto. cbn [map]. rewrite f_exp_nat. apply rmap_bind. intros f _.
        rewrite f_exp_nat. apply rmap_bind. intros g _. cbn [rmap]. now rewrite <- (mk_binfun_nat r R).
    Qed.
    Lemma pregd_nat s : emptyor_pregd c' (rs s) = rmap rform (emptyor_pregd c s).
    Proof.
      destruct s as [t|[|a l]]; cbn [RenameText_facts.rs map emptyor_pregd]; [exact (gd_nat (SAtom t))| |exact (gd_nat (SList (a :: l)))].
      cbn [rmap]. unfold mk_or. now rewrite <- (mk_op_nat r R).
    Qed.
    Lemma assign_op_nat w : assign_op (r w) = assign_op w.
    Proof. unfold assign_op. now kws. Qed.
    Lemma p_effect_nat s : p_effect c' (rs s) = rmap rform (p_effect c s).
    Proof.
      pose proof (aft_nat s) as A. destruct s as [t|[|[[| | |w|o|k|z|]|] args]]; try exact A.
      cbn [RenameText_facts.rs map rt p_effect] in *. kws. destruct (String.eqb w "not").
      - destruct args as [|x [|]]; auto. cbn [map]. rewrite aft_nat. now apply rmap_bind.
      - rewrite assign_op_nat. destruct (assign_op w); auto. destruct args as [|h [|e [|]]]; auto. cbn [map].
        rewrite f_head_nat. apply rmap_bind. intros f _. rewrite f_exp_nat. apply rmap_bind. intros g _. cbn [rmap]. now rewrite <- (mk_binfun_nat r R).
    Qed.
    Lemma cond_effect_nat s : cond_effect c' (rs s) = rmap rform (cond_effect c s).
    Proof.
      pose proof (p_effect_nat s) as A. destruct s as [t|[|[[| | |w|o|k|z|]|] args]]; try exact A.
      cbn [RenameText_facts.rs map rt cond_effect] in *. kws. destruct (String.eqb w "and"); [|exact A].
      rewrite (mapR_nat' (p_effect c) _ _ rform) by apply p_effect_nat. apply rmap_bind. intros fs _. cbn [rmap]. unfold mk_and. now rewrite (mk_op_nat r R).
    Qed.
    Lemma effect_nat s : forall top, effect c' top (rs s) = rmap rform (effect c top s).
    Proof.
      induction s as [t|l IH] using sexp_ind'; intros top; [apply (p_effect_nat (SAtom t))|].
      destruct l as [|a args]; [apply (p_effect_nat (SList []))|]. inversion IH as [|? ? _ IHa]; subst. clear IH.
      destruct a as [[| | |w|o|k|z|]|l]; try (exact (p_effect_nat (SList (_ :: args)))).
      pose proof (p_effect_nat (SList (SAtom (TWord w) :: args))) as A.
      assert (M : forall top, mapR (effect c' top) (map rs args) = rmap (map rform) (mapR (effect c top) args)).
      { intros b. apply mapR_nat. eapply Forall_impl; [|exact IHa]. auto. }
      change (rs (SList (SAtom (TWord w) :: args))) with (SList (SAtom (TWord (r w)) :: map rs args)) in *. cbn [effect]. kws.
      destruct (top && String.eqb w "and"); [|destruct (String.eqb w "forall"); [|destruct (String.eqb w "when"); [|destruct (String.eqb w "oneof")]]]; auto.
      - rewrite M. apply rmap_bind. intros fs _. cbn [rmap]. unfold mk_and. now rewrite (mk_op_nat r R).
      - destruct args as [|[|vs] [|x [|]]]; try reflexivity. cbn [map RenameText_facts.rs].
        inversion IHa as [|? ? H1 H2]; subst. inversion H2 as [|? ? H3]; subst.
        rewrite (cr_vars _ _ C). apply rmap_bind. intros tl _. rewrite H3. apply rmap_bind. intros f _.
        rewrite mk_vars_nat. apply rmap_bind. intros vars _. cbn [rmap]. now rewrite (mk_forall_nat r R).
      - destruct args as [|x [|y [|]]]; auto. cbn [map]. rewrite gd_nat. apply rmap_bind. intros f _. rewrite cond_effect_nat. now apply rmap_bind.
      - destruct args as [|x args]; auto. remember (x :: args) as l. rewrite (M true).
        replace (match map rs l with [] => syntax | _ :: _ => (let* fs := rmap (map rform) (mapR (effect c true) l) in check (has NON_DETERMINISTIC (g_ext c')) (PDDLMissingRequirementError NON_DETERMINISTIC) ;; Ok (mk_bin OOneOf fs)) end)
          with (let* fs := rmap (map rform) (mapR (effect c true) l) in check (has NON_DETERMINISTIC (g_ext c')) (PDDLMissingRequirementError NON_DETERMINISTIC) ;; Ok (mk_bin OOneOf fs)) by now subst.
        replace (match l with [] => syntax | _ :: _ => (let* fs := mapR (effect c true) l in check (has NON_DETERMINISTIC (g_ext c)) (PDDLMissingRequirementError NON_DETERMINISTIC) ;; Ok (mk_bin OOneOf fs)) end)
          with (let* fs := mapR (effect c true) l in check (has NON_DETERMINISTIC (g_ext c)) (PDDLMissingRequirementError NON_DETERMINISTIC) ;; Ok (mk_bin OOneOf fs)) by now subst.
        apply rmap_bind. intros fs _. rewrite (cr_ext _ _ C). apply bind_same. intros [] _. cbn [rmap]. now rewrite (mk_bin_nat r R).
    Qed.
    Lemma emptyor_effect_nat s : emptyor_effect c' (rs s) = rmap rform (emptyor_effect c s).
    Proof.
      destruct s as [t|[|a l]]; cbn [RenameText_facts.rs map emptyor_effect]; [exact (effect_nat (SAtom t) true)| |exact (effect_nat (SList (a :: l)) true)].
      cbn [rmap]. unfold mk_or. now rewrite <- (mk_op_nat r R).
    Qed.
  End Ctx.
End Rename.
