(** Facts: whole domains, problems and plans with their words renamed (C70). *)
From Coq Require Import String Ascii List Bool Arith NArith Lia.
From Verif Require Import Py Names Reqs Logic Validation Core Lexer TypedList UpdateTags Parser Spec_Rename Py_facts Logic_facts GD_facts Rename_facts RenameText_facts RenameParse_facts.
Import ListNotations.
Open Scope string_scope.
Open Scope list_scope.

Section Rename.
  Variable r : string -> string.
  Hypothesis R : renaming r.
  Notation rvar := (ren_var r). Notation rterm := (ren_term r). Notation rform := (ren_form r). Notation rs := (rs r).
  Notation seqb := (req r R). Notation rtyped := (rtyped r). Notation rnames := (rnames r).

  (** ** the transformer *)
  Definition rdict {V W} (h : V -> W) (d : list (string * V)) : list (string * W) := map (fun kv => (r (fst kv), h (snd kv))) d.
  Definition rst (st : dstate) : dstate :=
    mkD (rdict (ren_const r) (s_constants st)) (rdict (ren_atom r) (s_predicates st)) (rdict rvar (s_params st)) (s_ext st) (option_map (ren_types r) (s_types st)).
  Definition natM {A B} (h : A -> B) (m : M A) (m' : M B) : Prop := forall st, m' (rst st) = (rst (fst (m st)), rmap h (snd (m st))).
  Lemma ret_nat {A B} (h : A -> B) x x' : x' = rmap h x -> natM h (ret x) (ret x').
  Proof. intros -> st. reflexivity. Qed.
  Lemma bindM_nat {A B C D} (f : A -> C) (g : B -> D) m m' k k' :
    natM f m m' -> (forall a, natM g (k a) (k' (f a))) -> natM g (bindM m k) (bindM m' k').
  Proof.
    intros H K st. unfold bindM. rewrite H. destruct (m st) as [st' [a|e]]; cbn [fst snd rmap]; auto. apply K.
  Qed.
  Lemma reads_nat {A B} (h : A -> B) f f' : (forall st, f' (rst st) = rmap h (f st)) -> natM h (reads f) (reads f').
  Proof. intros H st. unfold reads. cbn. now rewrite H. Qed.
  Lemma modify_nat f f' : (forall st, f' (rst st) = rst (f st)) -> natM (fun x : unit => x) (modify f) (modify f').
  Proof. intros H st. unfold modify. cbn. now rewrite H. Qed.
  Lemma mapM_nat {A B C D} (g : A -> C) (h : B -> D) (f : A -> M B) (f' : C -> M D) l :
    (forall a, natM h (f a) (f' (g a))) -> natM (map h) (mapM f l) (mapM f' (map g l)).
  Proof.
    intros H. induction l as [|x l IH]; cbn [map mapM]; [now apply ret_nat|].
    apply (bindM_nat h); auto. intros a. apply (bindM_nat (map h)); auto. intros b. now apply ret_nat.
  Qed.
  Lemma optM_nat {A B} (h : A -> B) (f : list sexp -> M A) (f' : list sexp -> M B) o :
    (forall l, natM h (f l) (f' (map rs l))) -> natM (option_map h) (optM f o) (optM f' (option_map (map rs) o)).
  Proof.
    intros H. destruct o as [l|]; cbn [option_map optM]; [|now apply ret_nat].
    apply (bindM_nat h); auto. intros a. now apply ret_nat.
  Qed.

  Lemma domain_ctx_nat st : ctx_rel r (domain_ctx st) (domain_ctx (rst st)).
  Proof.
    constructor; cbn [domain_ctx g_ext g_params g_const g_vars rst s_ext s_params s_constants]; auto.
    - intros n. unfold rdict. rewrite (dict_get_nat String.eqb String.eqb r seqb (ren_const r)).
      destruct (dict_get String.eqb n (s_constants st)); cbn [option_map rmap]; auto.
    - apply (tlv_nat r R).
  Qed.

  Lemma require_key_nat s : require_key (rs s) = require_key s.
  Proof. now destruct s as [[]|]. Qed.
  Lemma require_keys_nat l : require_keys (map rs l) = require_keys l.
  Proof.
    assert (E : mapO require_key (map rs l) = mapO require_key l).
    { induction l as [|x m IH]; [reflexivity|]. cbn [map mapO]. now rewrite require_key_nat, IH. }
    unfold require_keys. rewrite E. now destruct l.
  Qed.
  Lemma requirements_nat l : natM (fun x => x) (requirements l) (requirements (map rs l)).
  Proof.
    apply (bindM_nat (fun x => x)).
    - apply ret_nat. rewrite require_keys_nat. now destruct (require_keys l).
    - intros q. apply (bindM_nat (fun x => x)); [now apply modify_nat|]. intros []. now apply ret_nat.
  Qed.
  Lemma kw_o p : String.eqb (r p) "object" = String.eqb p "object".
  Proof. now apply (kw r R). Qed.
  Lemma types_section_nat l : natM (ren_types r) (types_section l) (types_section (map rs l)).
  Proof.
    apply (bindM_nat (map rtyped)); [apply ret_nat, (tln_nat r R)|]. intros d.
    assert (E : map (fun kv => (fst kv, match snd kv with Some p => if String.eqb p "object" then None else Some p | None => None end)) (map rtyped d)
      = ren_types r (map (fun kv => (fst kv, match snd kv with Some p => if String.eqb p "object" then None else Some p | None => None end)) d)).
    { unfold ren_types. rewrite !map_map. apply map_ext. intros [k [p|]]; cbn; auto. rewrite kw_o. now destruct (String.eqb p "object"). }
    apply (bindM_nat (fun x => x)).
    - apply reads_nat. intros st. cbn [rst s_ext]. rewrite rmap_id by auto. do 3 f_equal.
      clear. induction d as [|[k [p|]] d IH]; cbn; auto.
    - intros []. rewrite E. apply (bindM_nat (fun x => x)).
      + apply reads_nat. intros st. cbn [rst s_types]. rewrite rmap_id by auto. now destruct (s_types st).
      + intros []. apply (bindM_nat (fun x => x)); [now apply modify_nat|]. intros []. now apply ret_nat.
  Qed.
  Lemma const_of_nat t : const_of (rterm t) = ren_const r (const_of t).
  Proof. now destruct t. Qed.
  Lemma cbn_nat l : constants_by_name (map rtyped l) = rmap (rdict (ren_const r)) (constants_by_name l).
  Proof.
    unfold constants_by_name. rewrite (mapR_nat' (fun p => let* k := mk_const (fst p) (snd p) in Ok (fst p, const_of k)) _ rtyped (fun kv => (r (fst kv), ren_const r (snd kv)))).
    - apply rmap_bind. intros cs _. cbn [rmap]. f_equal. apply (dict_of_list_nat String.eqb String.eqb r seqb (ren_const r)).
    - intros [n g]. cbn [RenameParse_facts.rtyped fst snd]. rewrite (mk_const_nat r R). apply rmap_bind. intros k _. cbn. now rewrite const_of_nat.
  Qed.
  Lemma constants_section_nat l : natM (map (ren_const r)) (constants_section l) (constants_section (map rs l)).
  Proof.
    apply (bindM_nat (map rtyped)); [apply ret_nat, (tln_nat r R)|]. intros d.
    apply (bindM_nat (rdict (ren_const r))); [apply ret_nat, cbn_nat|]. intros cs.
    apply (bindM_nat (fun x => x)); [now apply modify_nat|]. intros []. apply ret_nat. cbn. f_equal. unfold rdict. now rewrite !map_map.
  Qed.
  Lemma map_TVar vs : map TVar (map rvar vs) = map rterm (map TVar vs).
  Proof. now rewrite !map_map. Qed.
  Lemma skeleton_nat s : atomic_formula_skeleton (rs s) = rmap (ren_atom r) (atomic_formula_skeleton s).
  Proof.
    destruct s as [t|[|[[]|] vs]]; try reflexivity. cbn [RenameText_facts.rs map rt atomic_formula_skeleton].
    rewrite (tlv_nat r R). apply rmap_bind. intros tl _. rewrite (mk_vars_nat r R). apply rmap_bind. intros vars _.
    rewrite map_TVar, (mk_pred_nat r R). apply rmap_bind. intros [] _; reflexivity.
  Qed.
  Lemma predicates_section_nat l : natM (map (ren_atom r)) (predicates_section l) (predicates_section (map rs l)).
  Proof.
    apply (bindM_nat (map (ren_atom r))).
    - apply ret_nat. destruct l as [|a l]; auto. apply (mapR_nat' atomic_formula_skeleton atomic_formula_skeleton rs (ren_atom r) (a :: l) skeleton_nat).
    - intros ps. apply (bindM_nat (fun x => x)); [|intros []; now apply ret_nat]. apply modify_nat. intros st. unfold set_predicates, rst. cbn. f_equal.
      unfold rdict. rewrite <- (dict_of_list_nat String.eqb String.eqb r seqb (ren_atom r)). now rewrite !map_map.
  Qed.
  Lemma fskeleton_nat s : atomic_function_skeleton (rs s) = rmap (ren_atom r) (atomic_function_skeleton s).
  Proof.
    destruct s as [t|[|[[]|] vs]]; try reflexivity. cbn [RenameText_facts.rs map rt atomic_function_skeleton].
    rewrite (tlv_nat r R). apply rmap_bind. intros tl _. rewrite (kw r R) by reflexivity. destruct (String.eqb s "total-cost") eqn:E.
    - cbn. unfold ren_atom. cbn. now rewrite (rn_words r R "total-cost" total_cost_in).
    - rewrite (mk_vars_nat r R). apply rmap_bind. intros vars _. rewrite map_TVar, (mk_numfun_nat r R). apply rmap_bind. intros [] _; reflexivity.
  Qed.
  Lemma number_stays : r "number" = "number".
  Proof. apply (rn_words r R). now left. Qed.
  Lemma tl_functions_nat : forall n l seen, length l <= n -> tl_functions seen (map rs l) = rmap (map (ritem (ren_atom r) r)) (tl_functions seen l).
  Proof.
    induction n as [|n IH]; intros l seen L; [destruct l; [reflexivity|cbn in L; lia]|].
    destruct l as [|a l]; [reflexivity|].
    assert (D : (let* f := atomic_function_skeleton (rs a) in let* ts := tl_functions true (map rs l) in Ok (IItem f :: ts))
      = rmap (map (ritem (ren_atom r) r)) (let* f := atomic_function_skeleton a in let* ts := tl_functions true l in Ok (IItem f :: ts))).
    { rewrite fskeleton_nat. apply rmap_bind. intros f _. rewrite IH by (cbn in *; lia). now apply rmap_bind. }
    destruct a as [[| | |w|m|o|k|]|x]; try exact D.
    destruct l as [|b l]; [exact D|]. destruct b as [[| | |g|m|o'|k|]|x]; try exact D.
    cbn [map RenameText_facts.rs rt tl_functions] in *. rewrite (kw r R) by reflexivity.
    destruct (String.eqb o "-" && seen && String.eqb g "number") eqn:E; auto.
    rewrite IH by (cbn in *; lia). now apply rmap_bind.
  Qed.
  Lemma functions_section_nat l : functions_section (map rs l) = rmap (ren_functions r) (functions_section l).
  Proof.
    assert (E : (let* ts := tl_functions false (map rs l) in
      except_value (let* ix := parse_typed_list atom_eqb (fun f => Ok f) ts false in typed_list_of_names ix) TypeError)
      = rmap (ren_functions r) (let* ts := tl_functions false l in
      except_value (let* ix := parse_typed_list atom_eqb (fun f => Ok f) ts false in typed_list_of_names ix) TypeError)).
    { rewrite (tl_functions_nat (length l)) by lia. apply rmap_bind. intros ts _. rewrite <- except_nat. f_equal.
      rewrite (parse_typed_list_nat atom_eqb atom_eqb (ren_atom r) (fun f => Ok f) (fun f => Ok f) r R (atom_eqb_nat r R)) by reflexivity.
      apply rmap_bind. intros ix _. apply names_of_nat. }
    destruct l; [reflexivity|exact E].
  Qed.
  Lemma action_parameters_nat l : natM (map rterm) (action_parameters l) (action_parameters (map rs l)).
  Proof.
    apply (bindM_nat (map rnames)); [apply ret_nat, (tlv_nat r R)|]. intros tl.
    apply (bindM_nat (map rvar)); [apply ret_nat, (mk_vars_nat r R)|]. intros vars.
    assert (E : dict_of_list String.eqb (combine (map fst (map rnames tl)) (map rvar vars)) = rdict rvar (dict_of_list String.eqb (combine (map fst tl) vars))).
    { replace (map fst (map rnames tl)) with (map r (map fst tl)) by now rewrite !map_map.
      rewrite combine_nat. apply (dict_of_list_nat String.eqb String.eqb r seqb rvar). }
    rewrite E. apply (bindM_nat (fun x => x)); [now apply modify_nat|]. intros []. apply ret_nat. cbn. f_equal. unfold rdict. now rewrite !map_map.
  Qed.
  Lemma is_kw_nat k s : is_kw k (rs s) = is_kw k s.
  Proof. now destruct s as [[]|]. Qed.
  Lemma action_body_nat l st : action_body (map rs l) (rst st) = rmap (fun b => (rform (fst b), rform (snd b))) (action_body l st).
  Proof.
    pose proof (domain_ctx_nat st) as C. unfold action_body. destruct l as [|k1 [|x [|k2 [|y [|]]]]]; cbn [map]; auto.
    - rewrite !is_kw_nat. destruct (is_kw ":precondition" k1); [|destruct (is_kw ":effect" k1); auto].
      + rewrite (pregd_nat r R _ _ C). now apply rmap_bind.
      + rewrite (emptyor_effect_nat r R _ _ C). now apply rmap_bind.
    - rewrite !is_kw_nat. destruct (is_kw ":precondition" k1 && is_kw ":effect" k2); auto.
      rewrite (pregd_nat r R _ _ C). apply rmap_bind. intros p _. rewrite (emptyor_effect_nat r R _ _ C). now apply rmap_bind.
  Qed.
  Lemma action_def_nat l : natM (ren_action r) (action_def l) (action_def (map rs l)).
  Proof.
    unfold action_def. destruct l as [|a l]; [now apply ret_nat|]. destruct a as [[| | |w|m|o|k|]|x]; try (now apply ret_nat).
    destruct l as [|k l]; [now apply ret_nat|]. destruct l as [|[t|ps] body]; try (now apply ret_nat).
    cbn [map RenameText_facts.rs rt]. rewrite is_kw_nat. destruct (is_kw ":parameters" k); [|now apply ret_nat].
    apply (bindM_nat (map rterm)); [apply action_parameters_nat|]. intros vars.
    apply (bindM_nat (fun b => (rform (fst b), rform (snd b)))); [apply reads_nat; intros st; apply action_body_nat|]. intros b.
    apply ret_nat. apply (mk_action_nat r R w vars (Some (fst b)) (Some (snd b))).
  Qed.

  (** ** derived predicates *)
  Notation rtypes := (option_map (ren_types r)).
  Definition rstep (x : option string + res unit) : option string + res unit := match x with inl o => inl (option_map r o) | inr y => inr y end.
  Lemma subtype_step_nat types a right p : subtype_step (rtypes types) (r a) (map r right) (option_map r p) = rstep (subtype_step types a right p).
  Proof.
    destruct p as [p|]; cbn [option_map subtype_step]; auto. rewrite (memb_nat String.eqb String.eqb r seqb).
    destruct (memb String.eqb p right); auto. destruct types as [d|]; cbn [option_map]; auto.
    unfold ren_types. rewrite (dict_get_nat String.eqb String.eqb r seqb (option_map r)). cbn [rstep]. now destruct (dict_get String.eqb a d).
  Qed.
  Lemma check_subtype_nat types a right : check_subtype (rtypes types) (r a) (map r right) = check_subtype types a right.
  Proof.
    unfold check_subtype. 
    assert (E : loop (subtype_step (rtypes types) (r a) (map r right)) 1 (Some (r a)) = rstep (loop (subtype_step types a right) 1 (Some a))).
    { cbn [loop]. change (Some (r a)) with (option_map r (Some a)). rewrite subtype_step_nat.
      destruct (subtype_step types a right (Some a)) as [p|y]; cbn [rstep]; auto. apply subtype_step_nat. }
    rewrite E. destruct (loop (subtype_step types a right) 1 (Some a)) as [p|y]; cbn [rstep]; auto.
    rewrite subtype_step_nat. destruct (subtype_step types a right p); reflexivity.
  Qed.
  Lemma check_subtypes_nat types l right : check_subtypes (rtypes types) (map r l) (map r right) = check_subtypes types l right.
  Proof.
    assert (E : iterR (fun g => check_subtype (rtypes types) g (map r right)) (map r l) = iterR (fun g => check_subtype types g right) l)
      by (apply iterR_nat'; intros; apply check_subtype_nat).
    destruct right; [reflexivity|exact E].
  Qed.
  Notation rtagmap := (rdict (map r)).
  Lemma set_tag_nat n gs m : dict_set String.eqb (r n) (map r gs) (rtagmap m) = rtagmap (dict_set String.eqb n gs m).
  Proof. apply (dict_set_nat String.eqb String.eqb r seqb (map r)). Qed.
  Lemma head_types_nat types head : forall m def, head_types (rtypes types) (rtagmap m) (map rterm head) (map rterm def) = rmap rtagmap (head_types types m head def).
  Proof.
    induction head as [|t head IH]; intros m def; cbn [map head_types]; auto. destruct def as [|d def]; cbn [map]; auto.
    destruct t as [n g|v]; cbn [ren_term]; auto. cbn [ren_var v_tags v_name]. rewrite t_tags_nat.
    destruct (v_tags v) as [|g gs]; cbn [map].
    - destruct (t_tags d) as [|g gs]; cbn [map]; [apply IH|]. rewrite <- (IH (dict_set String.eqb (v_name v) (g :: gs) m)).
      now rewrite <- set_tag_nat.
    - rewrite <- (check_subtypes_nat types (g :: gs)). cbn [map]. apply bind_same. intros [] _.
      rewrite <- (IH (dict_set String.eqb (v_name v) (g :: gs) m)). now rewrite <- set_tag_nat.
  Qed.
  Lemma replace_term_nat m t : replace_term (rtagmap m) (rterm t) = rmap rterm (replace_term m t).
  Proof.
    destruct t as [n g|v]; auto. cbn [ren_term replace_term]. cbn [ren_var v_name].
    unfold rdict. rewrite (dict_get_nat String.eqb String.eqb r seqb (map r)). destruct (dict_get String.eqb (v_name v) m) as [tags|]; cbn [option_map]; auto.
    unfold with_type_tags. cbn [ren_var v_name].
    change (CSet (map r tags)) with (ren_coll r (CSet tags)). rewrite (mk_var_nat r R). now apply rmap_bind.
  Qed.
  Lemma bind_vars_nat vs : forall m, bind_vars (rtagmap m) (map rvar vs) = rtagmap (bind_vars m vs).
  Proof.
    unfold bind_vars. induction vs as [|v vs IH]; intros m; cbn [map fold_left]; auto. cbn [ren_var v_name v_tags]. rewrite set_tag_nat. apply IH.
  Qed.
  Lemma update_nat f : forall m, update_type_tags (rtagmap m) (rform f) = rmap rform (update_type_tags m f).
  Proof.
    induction f using form_ind'; intros m; cbn [ren_form update_type_tags]; auto.
    - rewrite (mapR_nat' (replace_term m) _ _ rterm) by apply replace_term_nat. apply rmap_bind. intros ts0 _. apply (mk_pred_nat r R).
    - rewrite replace_term_nat. apply rmap_bind. intros x _. rewrite replace_term_nat. apply rmap_bind. intros y _. apply (mk_eq_nat r R).
    - rewrite (mapR_nat' (replace_term m) _ _ rterm) by apply replace_term_nat. apply rmap_bind. intros ts0 _. apply (mk_numfun_nat r R).
    - rewrite (mapR_nat (update_type_tags m) _ _ rform) by (eapply Forall_impl; [|eassumption]; auto). apply rmap_bind. intros l _. cbn [rmap].
      now rewrite (mk_binfun_nat r R).
    - rewrite (mapR_nat (update_type_tags m) _ _ rform) by (eapply Forall_impl; [|eassumption]; auto). apply rmap_bind. intros l _. cbn [rmap].
      now rewrite (mk_bin_nat r R).
    - rewrite IHf. now apply rmap_bind.
    - rewrite bind_vars_nat, IHf. apply rmap_bind. intros c _. cbn [rmap]. now rewrite (mk_quant_nat r R).
  Qed.
  Lemma derived_callback_nat st head cond : derived_callback (rst st) (ren_atom r head) (rform cond) = rmap (ren_derived r) (derived_callback st head cond).
  Proof.
    unfold derived_callback. cbn [rst s_predicates s_types]. destruct head as [n ts]. cbn [ren_atom fst snd]. unfold rdict at 1.
    rewrite (dict_get_nat String.eqb String.eqb r seqb (ren_atom r)).
    destruct (dict_get String.eqb n (s_predicates st)) as [[dn dts]|]; cbn [option_map]; auto. cbn [ren_atom fst snd]. rewrite !map_length.
    apply bind_same. intros [] _. change (@nil (string * list string)) with (rtagmap []) at 1. rewrite head_types_nat. apply rmap_bind. intros m _.
    change (FPred (r n) (map rterm ts)) with (rform (FPred n ts)). rewrite update_nat. apply rmap_bind. intros p _.
    rewrite update_nat. apply rmap_bind. intros c' _. now destruct p.
  Qed.
  Lemma derived_def_nat l : natM (ren_derived r) (derived_def l) (derived_def (map rs l)).
  Proof.
    unfold derived_def. destruct l as [|h [|x [|]]]; try (now apply ret_nat). cbn [map].
    apply (bindM_nat (ren_atom r)); [apply ret_nat, skeleton_nat|]. intros head.
    apply (bindM_nat rform); [apply reads_nat; intros st; apply (gd_nat r R), domain_ctx_nat|]. intros cond.
    apply reads_nat. intros st. apply derived_callback_nat.
  Qed.
  Definition rstruct (x : action + derived) : action + derived := match x with inl a => inl (ren_action r a) | inr d => inr (ren_derived r d) end.
  Lemma structure_def_nat s : natM rstruct (structure_def s) (structure_def (rs s)).
  Proof.
    unfold structure_def. destruct s as [t|[|k body]]; try (now apply ret_nat). cbn [RenameText_facts.rs map]. rewrite !is_kw_nat.
    destruct (is_kw ":action" k); [|destruct (is_kw ":derived" k); [|now apply ret_nat]].
    - apply (bindM_nat (ren_action r)); [apply action_def_nat|]. intros a. now apply ret_nat.
    - apply (bindM_nat (ren_derived r)); [apply derived_def_nat|]. intros a. now apply ret_nat.
  Qed.
  Lemma section_nat k l : section k (map rs l) = (option_map (map rs) (fst (section k l)), map rs (snd (section k l))).
  Proof.
    destruct l as [|[t|[|k' body]] l]; try reflexivity. cbn [map RenameText_facts.rs section]. rewrite is_kw_nat. now destruct (is_kw k k').
  Qed.
  Lemma opt_list_nat {A B} (f : A -> B) o : opt_list (option_map (map f) o) = map f (opt_list o).
  Proof. now destruct o. Qed.
  Lemma domain_rule_nat n l0 : natM (ren_domain r) (domain_rule n l0) (domain_rule (r n) (map rs l0)).
  Proof.
    unfold domain_rule. rewrite section_nat. destruct (section ":requirements" l0) as [o1 l1]. cbn [fst snd].
    apply (bindM_nat (option_map (fun x => x))); [apply optM_nat, requirements_nat|]. intros q.
    rewrite section_nat. destruct (section ":types" l1) as [o2 l2]. cbn [fst snd].
    apply (bindM_nat (option_map (ren_types r))); [apply optM_nat, types_section_nat|]. intros ty.
    rewrite section_nat. destruct (section ":constants" l2) as [o3 l3]. cbn [fst snd].
    apply (bindM_nat (option_map (map (ren_const r)))); [apply optM_nat, constants_section_nat|]. intros cs.
    rewrite section_nat. destruct (section ":predicates" l3) as [o4 l4]. cbn [fst snd].
    apply (bindM_nat (option_map (map (ren_atom r)))); [apply optM_nat, predicates_section_nat|]. intros ps.
    rewrite section_nat. destruct (section ":functions" l4) as [o5 l5]. cbn [fst snd].
    apply (bindM_nat (option_map (ren_functions r))); [apply optM_nat; intros l; apply ret_nat, functions_section_nat|]. intros fs.
    apply (bindM_nat (map rstruct)); [apply mapM_nat, structure_def_nat|]. intros xs.
    apply (bindM_nat (fun x => x)); [now apply modify_nat|]. intros []. apply ret_nat. rewrite <- (mk_domain_nat r R). f_equal.
    - now destruct q.
    - apply opt_list_nat.
    - apply opt_list_nat.
    - induction xs as [|[]]; cbn; congruence.
    - unfold ren_functions. now destruct fs.
    - induction xs as [|[]]; cbn; congruence.
  Qed.
  Lemma parse_domain_sexp_nat l : natM (ren_domain r) (parse_domain_sexp l) (parse_domain_sexp (map rs l)).
  Proof.
    unfold parse_domain_sexp. destruct l as [|[t|l] m]; try (now apply ret_nat). destruct l as [|a l]; [now apply ret_nat|].
    destruct a as [[| | |k1|? |o|k|]|x]; try (now apply ret_nat). destruct l as [|[t|l2] secs]; try (now apply ret_nat).
    destruct l2 as [|a l2]; [now apply ret_nat|]. destruct a as [[| | |k2|? |o|k|]|x]; try (now apply ret_nat).
    destruct l2 as [|a l2]; [now apply ret_nat|]. destruct a as [[| | |n|? |o|k|]|x]; try (now apply ret_nat).
    destruct l2; [|now apply ret_nat]. destruct m; [|now apply ret_nat].
    cbn [map RenameText_facts.rs rt]. rewrite !(kw r R) by reflexivity. destruct (String.eqb k1 "define" && String.eqb k2 "domain"); [|now apply ret_nat].
    apply domain_rule_nat.
  Qed.
  Lemma parse_domain_nat s : natM (ren_domain r) (parse_domain s) (parse_domain (rename_text r s)).
  Proof.
    unfold parse_domain. rewrite (read_text_nat r R). destruct (read_text s); cbn [option_map]; [apply parse_domain_sexp_nat|now apply ret_nat].
  Qed.
  Lemma parse_domain_fresh_nat s : parse_domain_fresh (rename_text r s) = rmap (ren_domain r) (parse_domain_fresh s).
  Proof.
    unfold parse_domain_fresh. change init_dstate with (rst init_dstate) at 1. now rewrite parse_domain_nat.
  Qed.

  (** ** problems and plans *)
  Lemma problem_ctx_nat : ctx_rel r problem_ctx problem_ctx.
  Proof.
    constructor; cbn [problem_ctx g_ext g_params g_const g_vars]; auto.
    - intros n. apply (mk_const_nat r R n None).
    - intros l. rewrite (tl_vars_nat r R (length l)) by lia. now destruct (tl_vars false l).
  Qed.
  Lemma consts_nat l : mapR (fun x => mk_const x None) (map r l) = rmap (map rterm) (mapR (fun x => mk_const x None) l).
  Proof. apply mapR_nat'. intros n. apply (mk_const_nat r R n None). Qed.
  Lemma bft_nat s : basic_function_term (rs s) = rmap rform (basic_function_term s).
  Proof.
    destruct s as [[]|[|[[]|] args]]; try reflexivity; [apply (mk_numfun_nat r R s [])|].
    cbn [RenameText_facts.rs map rt basic_function_term]. rewrite words_nat, of_opt_nat. apply rmap_bind. intros ns _.
    rewrite consts_nat. apply rmap_bind. intros ts _. apply (mk_numfun_nat r R).
  Qed.
  Notation robjs := (rdict (ren_const r)).
  Lemma afn_nat objs s : atomic_formula_name (robjs objs) (rs s) = rmap rform (atomic_formula_name objs s).
  Proof.
    destruct s as [t|[|[[]|] args]]; try reflexivity. cbn [RenameText_facts.rs map rt atomic_formula_name]. rewrite words_nat, of_opt_nat.
    apply rmap_bind. intros ns _.
    rewrite (mapR_nat' (fun x => match dict_get String.eqb x objs with Some k => Ok (const_term k) | None => mk_const x None end) _ r rterm).
    - apply rmap_bind. intros ts _. apply (mk_pred_nat r R).
    - intros n. unfold rdict. rewrite (dict_get_nat String.eqb String.eqb r seqb (ren_const r)). destruct (dict_get String.eqb n objs); cbn [option_map].
      + now rewrite const_term_nat.
      + apply (mk_const_nat r R n None).
  Qed.
  Lemma init_el_nat objs s : init_el (robjs objs) (rs s) = rmap rform (init_el objs s).
  Proof.
    pose proof (afn_nat objs s) as A. destruct s as [t|[|a args]]; try reflexivity. destruct a as [[| | |w|m|o|k|]|x]; try reflexivity.
    - cbn [RenameText_facts.rs map rt init_el] in *. rewrite (kw r R) by reflexivity. destruct (String.eqb w "not"); [|exact A].
      destruct args as [|x [|]]; auto. cbn [map]. rewrite afn_nat. now apply rmap_bind.
    - cbn [RenameText_facts.rs map rt init_el]. destruct args as [|f [|b [|]]]; auto; try (destruct b as [[]|]; reflexivity). cbn [map].
      destruct b as [[]|]; try reflexivity. cbn [RenameText_facts.rs rt].
      destruct (String.eqb o "="); auto. rewrite bft_nat. apply rmap_bind. intros g _. apply bind_same. intros v _. cbn [rmap].
      now rewrite <- (mk_binfun_nat r R).
  Qed.
  Lemma metric_exp_nat s : metric_f_exp (rs s) = rmap rform (metric_f_exp s).
  Proof.
    induction s as [t|l IH] using sexp_ind'.
    - destruct t; try apply (bft_nat (SAtom _)). reflexivity.
    - destruct l as [|a args]; [reflexivity|]. inversion IH as [|? ? _ IHa]; subst.
      destruct a as [[]|]; try apply (bft_nat (SList (_ :: _))). cbn [RenameText_facts.rs map rt metric_f_exp]. rewrite map_length.
      destruct (arith_op s (length args)); auto. rewrite (mapR_nat metric_f_exp _ _ rform) by auto. apply rmap_bind. intros ops _. cbn [rmap].
      now rewrite (mk_binfun_nat r R).
  Qed.
  Lemma metric_spec_nat l : metric_spec (map rs l) = rmap (ren_metric r) (metric_spec l).
  Proof.
    destruct l as [|a l]; try reflexivity. destruct a as [[| | |w|m|o|k|]|x]; try reflexivity. destruct l as [|e [|]]; try reflexivity.
    cbn [RenameText_facts.rs map rt metric_spec].
    rewrite (memb_words r R w ["maximize"; "minimize"]) by (intros x [<-|[<-|[]]]; vm_compute; auto 60).
    destruct (memb String.eqb w ["maximize"; "minimize"]) eqn:E; auto.
    assert (W : r w = w).
    { apply (rn_words r R). cbn in E. destruct (String.eqb_spec w "maximize") as [->|_]; [vm_compute; auto 60|].
      destruct (String.eqb_spec w "minimize") as [->|_]; [vm_compute; auto 60|discriminate]. }
    rewrite metric_exp_nat. apply rmap_bind. intros f _. rewrite W. unfold mk_metric. now apply bind_same.
  Qed.
  Lemma objects_section_nat l : objects_section (map rs l) = rmap robjs (objects_section l).
  Proof. unfold objects_section. rewrite (tln_nat r R). apply rmap_bind. intros d _. apply cbn_nat. Qed.
  Lemma opt_res_nat {A B} (h : A -> B) f f' o : (forall l, f' (map rs l) = rmap h (f l)) -> opt_res f' (option_map (map rs) o) = rmap (option_map h) (opt_res f o).
  Proof. intros H. destruct o as [l|]; cbn [option_map opt_res]; auto. rewrite H. now apply rmap_bind. Qed.
  Lemma problem_rule_nat objs0 n dn l0 : problem_rule (robjs objs0) (r n) (r dn) (map rs l0) = rmap (ren_problem r) (problem_rule objs0 n dn l0).
  Proof.
    unfold problem_rule. rewrite section_nat. destruct (section ":requirements" l0) as [o1 l1]. cbn [fst snd].
    rewrite (opt_res_nat (fun x => x) require_keys) by (intros l; rewrite require_keys_nat; now destruct (require_keys l)).
    apply rmap_bind. intros q _. rewrite section_nat. destruct (section ":objects" l1) as [o2 l2]. cbn [fst snd].
    rewrite (opt_res_nat robjs objects_section) by apply objects_section_nat. apply rmap_bind. intros os _.
    rewrite section_nat. destruct (section ":init" l2) as [[inits|] l3]; cbn [fst snd option_map]; auto.
    replace (match option_map robjs os with Some d => d | None => robjs objs0 end) with (robjs (match os with Some d => d | None => objs0 end)) by now destruct os.
    rewrite (mapR_nat' (init_el (match os with Some d => d | None => objs0 end)) _ _ rform) by apply init_el_nat. apply rmap_bind. intros init _.
    rewrite section_nat. destruct (section ":goal" l3) as [[[|g [|]]|] l4]; cbn [fst snd option_map map]; auto.
    rewrite (gd_nat r R _ _ problem_ctx_nat). apply rmap_bind. intros goal _.
    rewrite section_nat. destruct (section ":metric" l4) as [o5 l5]. cbn [fst snd].
    rewrite (opt_res_nat (ren_metric r) metric_spec) by apply metric_spec_nat. apply rmap_bind. intros m _.
    destruct l5; auto. cbn [map]. rewrite <- (mk_problem_nat r R). f_equal.
    - now destruct q.
    - destruct os; auto. cbn. unfold rdict. now rewrite !map_map.
  Qed.
  Lemma parse_problem_sexp_nat objs0 l : parse_problem_sexp (robjs objs0) (map rs l) = rmap (ren_problem r) (parse_problem_sexp objs0 l).
  Proof.
    unfold parse_problem_sexp. destruct l as [|[t|l] m]; try reflexivity. destruct l as [|a l]; [reflexivity|].
    destruct a as [[| | |k1|? |o|k|]|x]; try reflexivity. destruct l as [|[t|l2] l]; try reflexivity.
    destruct l2 as [|a l2]; [reflexivity|]. destruct a as [[| | |k2|? |o|k|]|x]; try reflexivity.
    destruct l2 as [|a l2]; [reflexivity|]. destruct a as [[| | |n|? |o|k|]|x]; try reflexivity.
    destruct l2; [|reflexivity]. destruct l as [|[t|l3] secs]; try reflexivity.
    destruct l3 as [|k3 l3]; [reflexivity|]. destruct l3 as [|a l3]; [reflexivity|]. destruct a as [[| | |dn|? |o|k|]|x]; try reflexivity.
    destruct l3; [|reflexivity]. destruct m; [|reflexivity].
    cbn [map RenameText_facts.rs rt]. rewrite !(kw r R) by reflexivity. rewrite is_kw_nat.
    destruct (String.eqb k1 "define" && String.eqb k2 "problem" && is_kw ":domain" k3); [|reflexivity]. apply problem_rule_nat.
  Qed.
  Lemma parse_problem_nat s : parse_problem (rename_text r s) = rmap (ren_problem r) (parse_problem s).
  Proof.
    unfold parse_problem, parse_problem_from. rewrite (read_text_nat r R). destruct (read_text s); cbn [option_map]; auto.
    apply (parse_problem_sexp_nat []).
  Qed.
  Lemma parse_plan_nat s : parse_plan (rename_text r s) = rmap (ren_plan r) (parse_plan s).
  Proof.
    unfold parse_plan. rewrite (read_text_nat r R). destruct (read_text s) as [l|]; cbn [option_map]; auto. apply mapR_nat'.
    intros x. destruct x as [t|[|[[]|] args]]; try reflexivity. cbn [RenameText_facts.rs map rt ground_action]. rewrite words_nat, of_opt_nat.
    apply rmap_bind. intros ns _. rewrite consts_nat. apply rmap_bind. intros ts _. cbn. do 2 f_equal. rewrite !map_map. apply map_ext.
    intros t. apply const_of_nat.
  Qed.
End Rename.
