(** A printed problem: its tree and what the parser makes of it. *)
From Coq Require Import String List Bool Arith ZArith Lia Permutation.
From Verif Require Import Py Names Reqs Logic Built Validation Core Lexer Show TypedList Parser.
From Verif Require Import Spec Spec_Core Spec_Parse Spec_Print Spec_Numbers Spec_Features Spec_Text Spec_Problem.
From Verif Require Spec_Same.
From Verif Require Import Py_facts Names_facts Logic_facts Ops_facts Built_facts NF_facts Lex_facts Layout_facts Parse_facts
  GD_facts Text_facts Print_facts Number_facts NumShow_facts ShowSame_facts Vars_facts Order_facts Feature_facts CoreEq_facts
  Validation_facts Core_facts Problem_facts FormText_facts.
Import ListNotations.
Open Scope string_scope.
Open Scope list_scope.

(** ** stripping the types of constants *)
Lemma untyped_term_eqb t : term_eqb (untyped_term t) t = true.
Proof. destruct t; cbn; [apply String.eqb_refl|apply (eqv_refl _ var_eqb_equiv)]. Qed.
Lemma untyped_terms_eqb ts : list_eqb term_eqb (map untyped_term ts) ts = true.
Proof.
  apply list_eqb_Forall2. induction ts; constructor; auto. apply untyped_term_eqb.
Qed.
Lemma show_untyped_term t : show_term (untyped_term t) = show_term t.
Proof. now destruct t. Qed.
Lemma show_untyped f : show_form (untyped f) = show_form f.
Proof.
  assert (T : forall n ts, show_atom n (map untyped_term ts) = show_atom n ts).
  { intros n ts. unfold show_atom. rewrite map_map. rewrite (map_ext _ show_term) by apply show_untyped_term.
    now destruct ts. }
  induction f using form_ind'; cbn [untyped show_form]; rewrite ?show_untyped_term; auto; try congruence.
  - rewrite map_map. erewrite map_ext_Forall; [reflexivity|]. auto.
  - rewrite map_map. erewrite map_ext_Forall; [reflexivity|]. auto.
Qed.
Lemma eqf_refl f : eqf f f.
Proof. apply (eqv_refl _ form_eqb_equiv). Qed.
Lemma eqf_untyped f : eqf (untyped f) f.
Proof.
  unfold eqf. induction f using form_ind'; cbn [untyped form_eqb].
  - now rewrite String.eqb_refl, untyped_terms_eqb.
  - now rewrite !untyped_term_eqb.
  - now rewrite String.eqb_refl, untyped_terms_eqb.
  - apply (eqf_refl (FNumVal v)).
  - apply andb_true_iff. split; [now destruct k|]. apply list_eqb_Forall2.
    induction H; constructor; auto.
  - apply andb_true_iff. split; [now destruct k|]. apply list_eqb_Forall2.
    induction H; constructor; auto.
  - auto.
  - rewrite IHf. rewrite (eqv_refl _ (set_eqb_equiv _ var_eqb_equiv)). now destruct q.
  - now rewrite IHf1, IHf2.
  - rewrite IHf. now rewrite (eqv_refl _ (set_eqb_equiv _ var_eqb_equiv)).
Qed.
Lemma untyped_ops ops : Forall2 eqf ops (map untyped ops).
Proof. induction ops; constructor; auto. apply eqf_sym, eqf_untyped. Qed.
Lemma nff_untyped f : nff f -> nff (untyped f).
Proof.
  induction f using form_ind'; auto.
  - intros N. apply (nff_raw (CFun k)) in N as [N1 N2]. cbn [untyped]. apply (nff_raw (CFun k)). split.
    + apply Forall_map. rewrite Forall_forall in *. auto.
    + apply (nfn_eqf _ ops); auto. apply untyped_ops.
  - intros N. apply (nff_raw (CBin k)) in N as [N1 N2]. cbn [untyped]. apply (nff_raw (CBin k)). split.
    + apply Forall_map. rewrite Forall_forall in *. auto.
    + apply (nfn_eqf _ ops); auto. apply untyped_ops.
  - cbn. tauto.
  - cbn. tauto.
  - cbn. tauto.
Qed.

(** ** goals *)
Lemma rx_goal f : goal_form f -> rx (show_form f) [form_sx (untyped f)].
Proof. intros G. rewrite <- show_untyped. apply rx_form. now apply (condition_readable problem_ctx). Qed.
Lemma eqf_trans f g h : eqf f g -> eqf g h -> eqf f h.
Proof. apply (eqv_trans _ form_eqb_equiv). Qed.
Lemma parse_goal f : built f -> goal_form f ->
  exists g, gd problem_ctx (form_sx (untyped f)) = Ok g /\ eqf g f /\ show_form g = show_form f.
Proof.
  intros B G. assert (N : nff (untyped f)) by now apply nff_untyped, built_nff.
  destruct (gd_sim problem_ctx (or_intror eq_refl) (untyped f) G N) as (g & E & Q).
  exists g. split; auto. split.
  - apply (eqf_trans _ (untyped f)); [now apply sim_eqf|apply eqf_untyped].
  - rewrite (sim_show _ _ Q N). apply show_untyped.
Qed.

(** a property of the terms of operands holds of the terms of the result *)
Definition all_terms (Q : term -> Prop) (f : form) : Prop := forall t, occurs t f -> Q t.
Lemma all_terms_op Q c ops : Forall (all_terms Q) ops -> all_terms Q (mk_op c ops).
Proof.
  intros F.
  assert (R : forall l, Forall (all_terms Q) l <-> all_terms Q (raw_node c l)).
  { intros l. rewrite Forall_forall. unfold all_terms. split.
    - intros H t O. destruct c; inversion O; subst; eapply H; eauto.
    - intros H x Hx t O. apply H. destruct c; econstructor; eauto. }
  apply mk_op_P; auto.
  - intros f l O H. apply ops_if_raw in O. subst. now apply R.
  - intros l. apply R.
Qed.
Lemma goal_untagged s f : gd problem_ctx s = Ok f ->
  all_terms (fun t => t_tags t = []) f.
Proof.
  assert (C : forall t, from_ctx problem_ctx t -> t_tags t = []).
  { intros t [(n & H)|[(n & v & -> & H)|(n & v & -> & _ & H)]].
    - cbn in H. apply mk_const_Ok in H as (-> & _). reflexivity.
    - discriminate.
    - apply mk_var_Ok in H as (-> & _). reflexivity. }
  apply gd_P.
  - intros n ts g F H t O. apply mk_pred_Ok in H. subst. inversion O; subst. rewrite Forall_forall in F. auto.
  - intros l r g L R H t O. apply mk_eq_Ok in H. subst. inversion O; subst; auto.
  - intros n ts g F H t O. apply mk_numfun_Ok in H. subst. inversion O; subst. rewrite Forall_forall in F. auto.
  - intros v t O. inversion O.
  - intros k ops. apply (all_terms_op _ (CFun k)).
  - intros k ops. apply (all_terms_op _ (CBin k)).
  - intros g H t O. inversion O; subst. auto.
  - intros q s' tl vs g H H1 H2 t O. cbn in H. destruct (tl_vars false s'); [|discriminate]. inversion H; subst.
    cbn in H1. inversion H1; subst. inversion O; subst; auto. contradiction.
Qed.

(** ** the initial state *)
Lemma ground_legal ts : Forall ground ts -> Forall term_legal ts.
Proof. intros F. eapply Forall_impl; [|exact F]. intros t (n & g & -> & L). exact L. Qed.
Lemma init_readable f : init_form f -> readable f.
Proof.
  intros [n ts L F|n ts L F|n ts z L F Z|n ts m e L F Z]; cbn.
  - split; [apply L|now apply ground_legal].
  - split; [apply L|now apply ground_legal].
  - split; [split; [apply L|now apply ground_legal]|]. split; auto.
    destruct (show_num_numeral (NInt z)) as (q & r & N & _); eauto using numeral_dotted.
  - split; [split; [apply L|now apply ground_legal]|]. split; auto.
    destruct (show_num_numeral (NDec m e)) as (q & r & N & _); eauto using numeral_dotted.
Qed.
Lemma ground_words ts : Forall ground ts -> mapO word (flat_map term_sx ts) = Some (map t_name ts).
Proof.
  induction 1 as [|t ts (n & g & -> & L) F IH]; auto. cbn. now rewrite IH.
Qed.
Lemma ground_consts ts : Forall ground ts ->
  mapR (fun x => mk_const x None) (map t_name ts) = Ok (map untyped_term ts).
Proof.
  induction 1 as [|t ts (n & g & -> & L) F IH]; auto. cbn [map t_name mapR].
  rewrite (proj2 (mk_const_Ok n None (TConst n None))); auto. cbn [bind]. now rewrite IH.
Qed.
Definition lookup (objs : list (string * const)) (t : term) : term :=
  match dict_get String.eqb (t_name t) objs with
  | Some k => const_term k
  | None => TConst (t_name t) None
  end.
Definition objs_ok (objs : list (string * const)) : Prop :=
  Forall (fun kv : string * const => fst (snd kv) = fst kv) objs.
Lemma lookup_name objs t : objs_ok objs -> t_name (lookup objs t) = t_name t.
Proof.
  intros K. unfold lookup. destruct (dict_get String.eqb (t_name t) objs) as [[m g]|] eqn:D; auto.
  apply dict_get_In in D as (k' & Hi & E). apply String.eqb_eq in E. unfold objs_ok in K.
  rewrite Forall_forall in K. specialize (K _ Hi). cbn in *. congruence.
Qed.
Lemma lookup_consts objs ts : Forall ground ts ->
  mapR (fun x => match dict_get String.eqb x objs with
                 | Some k => Ok (const_term k)
                 | None => mk_const x None
                 end) (map t_name ts) = Ok (map (lookup objs) ts).
Proof.
  induction 1 as [|t ts (n & g & -> & L) F IH]; auto. cbn [map t_name mapR]. unfold lookup at 1. cbn [t_name].
  destruct (dict_get String.eqb n objs).
  - cbn [bind]. now rewrite IH.
  - rewrite (proj2 (mk_const_Ok n None (TConst n None))); auto. cbn [bind]. now rewrite IH.
Qed.
Lemma lookup_eqb objs ts : objs_ok objs -> Forall ground ts ->
  list_eqb term_eqb (map (lookup objs) ts) ts = true.
Proof.
  intros K F. apply list_eqb_Forall2. induction F as [|t ts (n & g & -> & L) F IH]; constructor; auto.
  pose proof (lookup_name objs (TConst n g) K) as E. unfold lookup in *. cbn [t_name] in *.
  destruct (dict_get String.eqb n objs) as [[m h]|]; cbn in *.
  - subst. apply String.eqb_refl.
  - apply String.eqb_refl.
Qed.
Lemma lookup_consistent objs ts : objs_ok objs -> name_consistent (map (lookup objs) ts).
Proof.
  intros K t u Ht Hu E g. apply in_map_iff in Ht as (a & <- & _). apply in_map_iff in Hu as (b & <- & _).
  rewrite !lookup_name in E by auto. unfold lookup. rewrite E. tauto.
Qed.
Lemma atomic_formula_name_sx objs n ts : objs_ok objs -> legal_name n -> Forall ground ts ->
  atomic_formula_name objs (SList (name_sx n :: flat_map term_sx ts)) = Ok (FPred n (map (lookup objs) ts)).
Proof.
  intros K L F. unfold atomic_formula_name, name_sx. rewrite ground_words by auto. cbn [of_opt bind].
  rewrite lookup_consts by auto. cbn [bind]. apply mk_pred_iff. split; auto. split; auto.
  now apply lookup_consistent.
Qed.
Lemma basic_function_term_sx n ts : legal_function n -> Forall ground ts ->
  basic_function_term (SList (name_sx n :: flat_map term_sx ts)) = Ok (FNumFun n (map untyped_term ts)).
Proof.
  intros L F. unfold basic_function_term, name_sx. rewrite ground_words by auto. cbn [of_opt bind].
  rewrite ground_consts by auto. cbn [bind]. unfold mk_numfun. now rewrite (proj2 (parse_function_Ok n) L).
Qed.

Lemma value_eqf g v w : num_eqb w v = true -> eqf (mk_binfun BEqual [untyped g; FNumVal w])
  (FBinFun BEqual [g; FNumVal v]) \/ ~ exists n ts, g = FNumFun n ts.
Proof.
  intros E. destruct g; try (right; intros (? & ? & ?); discriminate). left.
  apply (eqf_node (CFun BEqual)).
  - constructor; [apply (eqf_untyped (FNumFun n ts))|]. constructor; [exact E|constructor].
  - unfold nfn. cbn. right. split; [repeat constructor|]. repeat constructor.
Qed.
Definition obj_term (objs : list (string * const)) (t : term) : Prop :=
  t_tags t = [] \/ exists kv, In kv objs /\ t = const_term (snd kv).
Lemma lookup_obj objs t : obj_term objs (lookup objs t).
Proof.
  unfold lookup, obj_term. destruct (dict_get String.eqb (t_name t) objs) as [k|] eqn:D; auto.
  apply dict_get_In in D as (k' & Hi & E). right. exists (k', k). auto.
Qed.
Lemma ground_untagged ts t : Forall ground ts -> In t (map untyped_term ts) -> t_tags t = [].
Proof.
  intros F H. apply in_map_iff in H as (u & <- & Hu). rewrite Forall_forall in F.
  destruct (F u Hu) as (n & g & -> & _). reflexivity.
Qed.
Lemma init_el_sx objs f : objs_ok objs -> init_form f ->
  exists g, init_el objs (form_sx f) = Ok g /\ eqf g f /\ is_literal g = true
            /\ all_terms (obj_term objs) g /\ show_form g = show_form f.
Proof.
  assert (V : forall n ts v w, nonneg v -> num_eqb w v = true -> Spec_Same.is_float w = Spec_Same.is_float v ->
    show_form (mk_binfun BEqual [FNumFun n (map untyped_term ts); FNumVal w]) = show_form (FBinFun BEqual [FNumFun n ts; FNumVal v])).
  { intros n ts v w _ Q QF. change (mk_binfun BEqual) with (mk_op (CFun BEqual)). rewrite mk_op_id.
    - cbn [raw_node show_form map]. change (show_atom n (map untyped_term ts)) with (show_form (untyped (FNumFun n ts))).
      rewrite show_untyped, (show_num_same _ _ Q QF). reflexivity.
    - unfold nfn. cbn. right. split; [repeat constructor|]. repeat constructor. }
  intros K [n ts L F|n ts L F|n ts z L F Z|n ts m e L F Z].
  - exists (FPred n (map (lookup objs) ts)). split; [|split; [|split; [|split]]].
    + cbn [form_sx]. unfold name_sx, init_el.
      rewrite (legal_neq n "not") by (auto; cbn; tauto). now apply atomic_formula_name_sx.
    + unfold eqf. cbn. rewrite String.eqb_refl. now apply lookup_eqb.
    + reflexivity.
    + intros t O. inversion O; subst. apply in_map_iff in H0 as (u & <- & _). apply lookup_obj.
    + apply show_atom_same. rewrite String.eqb_refl. now apply lookup_eqb.
  - exists (FNot (FPred n (map (lookup objs) ts))). split; [|split; [|split; [|split]]].
    + cbn [form_sx]. unfold name_sx, init_el. cbn [String.eqb Ascii.eqb Bool.eqb].
      fold (name_sx n). now rewrite atomic_formula_name_sx.
    + unfold eqf. cbn. rewrite String.eqb_refl. now apply lookup_eqb.
    + reflexivity.
    + intros t O. inversion O; subst. inversion H0; subst. apply in_map_iff in H1 as (u & <- & _). apply lookup_obj.
    + cbn [show_form]. erewrite show_atom_same; [reflexivity|]. rewrite String.eqb_refl. now apply lookup_eqb.
  - destruct (show_num_literal (NInt z) Z) as (w & W & Q & QF).
    exists (mk_binfun BEqual [FNumFun n (map untyped_term ts); FNumVal w]). split; [|split; [|split; [|split]]].
    + cbn [form_sx map bfun_sx bfun_symbol init_el]. rewrite basic_function_term_sx by auto.
      cbn [String.eqb Ascii.eqb Bool.eqb bind]. now rewrite W.
    + destruct (value_eqf (FNumFun n ts) _ _ Q) as [H|H]; [exact H|]. exfalso. eauto.
    + reflexivity.
    + apply (all_terms_op _ (CFun BEqual)). constructor; [|constructor; [|constructor]].
      * intros t O. inversion O; subst. left. eapply ground_untagged; eauto.
      * intros t O. inversion O.
    + now apply V.
  - destruct (show_num_literal (NDec m e) Z) as (w & W & Q & QF).
    exists (mk_binfun BEqual [FNumFun n (map untyped_term ts); FNumVal w]). split; [|split; [|split; [|split]]].
    + cbn [form_sx map bfun_sx bfun_symbol init_el]. rewrite basic_function_term_sx by auto.
      cbn [String.eqb Ascii.eqb Bool.eqb bind]. now rewrite W.
    + destruct (value_eqf (FNumFun n ts) _ _ Q) as [H|H]; [exact H|]. exfalso. eauto.
    + reflexivity.
    + apply (all_terms_op _ (CFun BEqual)). constructor; [|constructor; [|constructor]].
      * intros t O. inversion O; subst. left. eapply ground_untagged; eauto.
      * intros t O. inversion O.
    + now apply V.
Qed.
Lemma inits_sx objs fs : objs_ok objs -> Forall init_form fs ->
  exists gs, mapR (init_el objs) (map form_sx fs) = Ok gs /\ Forall2 eqf gs fs
    /\ Forall (fun g => is_literal g = true) gs /\ Forall (all_terms (obj_term objs)) gs
    /\ map show_form gs = map show_form fs.
Proof.
  intros K. induction 1 as [|f fs H F (gs & G & Q & L & T & X)].
  - exists []. repeat split; constructor.
  - destruct (init_el_sx objs f K H) as (g & G1 & Q1 & L1 & T1 & X1). exists (g :: gs). cbn. rewrite G1, G, X, X1. auto 8.
Qed.

(** ** the metric *)
Lemma metric_readable f : metric_form f -> readable f.
Proof.
  induction f using form_ind'; intros E; inversion E; subst; cbn [readable]; auto.
  - split; [apply H1|now apply ground_legal].
  - apply fold_and_Forall'. rewrite Forall_forall in *. auto.
  - apply fold_and_Forall'. rewrite Forall_forall in *. auto.
  - inversion H as [|? ? H1 H4]; inversion H4; subst. cbn. auto.
  - inversion H as [|? ? H2 H4]; subst. cbn. auto.
Qed.
Lemma metric_f_exp_sx f : metric_form f -> nff f -> metric_f_exp (form_sx f) = Ok (untyped f).
Proof.
  assert (X : forall ops, Forall (fun f => metric_form f -> nff f -> metric_f_exp (form_sx f) = Ok (untyped f)) ops ->
    Forall metric_form ops -> Forall nff ops -> mapR metric_f_exp (map form_sx ops) = Ok (map untyped ops)).
  { intros ops F. induction F as [|f0 ops E F IH]; intros M N; auto. inversion M; inversion N; subst. cbn. now rewrite E, IH. }
  assert (Y : forall k ops, nfn (CFun k) ops -> mk_binfun k (map untyped ops) = untyped (FBinFun k ops)).
  { intros k ops N. apply (mk_op_id (CFun k)). apply (nfn_eqf _ ops); auto. apply untyped_ops. }
  induction f using form_ind'; intros E N; inversion E; subst.
  - cbn [form_sx metric_f_exp name_sx untyped]. now apply basic_function_term_sx.
  - reflexivity.
  - apply (nff_raw (CFun BPlus)) in N as [N1 N2]. rewrite <- Y by auto.
    cbn [form_sx bfun_sx bfun_symbol metric_f_exp]. unfold arith_op. rewrite map_length.
    rewrite (proj2 (Nat.leb_le 2 (length ops)) H2). cbn [String.eqb Ascii.eqb Bool.eqb]. now rewrite X.
  - apply (nff_raw (CFun BTimes)) in N as [N1 N2]. rewrite <- Y by auto.
    cbn [form_sx bfun_sx bfun_symbol metric_f_exp]. unfold arith_op. rewrite map_length.
    rewrite (proj2 (Nat.leb_le 2 (length ops)) H2). cbn [String.eqb Ascii.eqb Bool.eqb]. now rewrite X.
  - apply (nff_raw (CFun BDivide)) in N as [N1 N2]. rewrite <- Y by auto.
    cbn [form_sx bfun_sx bfun_symbol metric_f_exp]. rewrite X by auto. reflexivity.
  - apply (nff_raw (CFun BMinus)) in N as [N1 N2]. rewrite <- Y by auto.
    cbn [form_sx bfun_sx bfun_symbol metric_f_exp]. rewrite X by auto. reflexivity.
Qed.

(** ** the text, section by section *)
Definition piece (s : string) (l : list sexp) : Prop := rx s l /\ fst (run QStart s) = QStart.
Lemma run_nl_end a : no_comment a -> fst (run QStart (a +++ nl)) = QStart.
Proof.
  intros _. rewrite run_app. cbn [fst]. now destruct (fst (run QStart a)).
Qed.
Lemma piece_line s a l : rx a l -> s = a +++ nl -> piece s l.
Proof.
  intros R ->. split; [|apply run_nl_end, R]. rewrite <- (app_nil_r l). apply rx_app; auto; [|cbn; auto].
  apply (rx_nl ""), rx_nil.
Qed.
Lemma piece_nil : piece "" [].
Proof. split; [apply rx_nil|reflexivity]. Qed.
Lemma piece_rx s l b m : piece s l -> rx b m -> rx (s +++ b) (l ++ m).
Proof. intros [P1 P2] R. now apply rx_pre. Qed.
Lemma piece_app s l b m : piece s l -> piece b m -> piece (s +++ b) (l ++ m).
Proof.
  intros [P1 P2] [R1 R2]. split; [now apply rx_pre|]. rewrite run_app. cbn [fst]. now rewrite P2.
Qed.
Lemma piece_end s a l : rx s l -> s = a +++ nl -> piece s l.
Proof. intros R ->. split; auto. apply run_nl_end. destruct R as [R _]. now apply no_comment_app in R. Qed.

Definition req_section (rs : list req) : option (list sexp) :=
  match rs with [] => None | _ => Some (map req_sx (sorted_by req_str rs)) end.
Lemma rx_req r : r <> OBJECT_FLUENTS -> rx (req_str r) [req_sx r].
Proof.
  intros N. split; [destruct r; vm_compute; intuition|split; [destruct r; congruence||reflexivity|]].
  constructor; [|constructor]. constructor; discriminate.
Qed.
Lemma piece_reqs rs : ~ In OBJECT_FLUENTS rs ->
  piece (sort_and_print_collection "(:requirements " (map req_str rs) (")" +++ nl) false)
  (opt_section ":requirements" (req_section rs)).
Proof.
  intros N. unfold sort_and_print_collection, req_section. destruct rs as [|r rs]; [apply piece_nil|].
  cbn [map]. change (req_str r :: map req_str rs) with (map req_str (r :: rs)).
  apply (piece_line _ ("(" +++ ":requirements" +++ " " +++ join " " (sort_str (map req_str (r :: rs))) +++ ")")); [|str].
  apply rx_node; [rx_lit|]. rewrite sort_str_map, <- (flat_map_single req_sx). apply rx_join.
  apply sorted_by_Forall, Forall_forall. intros x Hx. apply rx_req. congruence.
Qed.
Lemma typed_lists_end {V} (f : V -> string) p d post : exists a, print_typed_lists f p d post = a +++ post.
Proof. unfold print_typed_lists. destruct (group_get None d); eexists; reflexivity. Qed.
Definition const_section (cs : list const) : option (list sexp) :=
  match cs with [] => None | _ => Some (typed_sx (fun n => n) const_sx (constant_groups cs)) end.
Lemma piece_constants kw cs : tx ("(" +++ kw) [LPAR; TKw kw] -> Forall const_ok cs ->
  piece (print_constants ("(" +++ kw) cs) (opt_section kw (const_section cs)).
Proof.
  intros K F. destruct cs as [|c cs]; [apply piece_nil|]. unfold const_section, opt_section.
  pose proof (rx_constants kw (c :: cs) K ltac:(discriminate) F) as R.
  destruct (typed_lists_end (fun n : string => n) ("(" +++ kw) (constant_groups (c :: cs)) (")" +++ nl)) as (a & E).
  apply (piece_end _ (a +++ ")") _ R). rewrite append_assoc, <- E. reflexivity.
Qed.
Lemma piece_init fs : Forall init_form fs ->
  piece (sort_and_print_collection "(:init " (map show_form fs) (")" +++ nl) true)
        [section_sx ":init" (map form_sx (sorted_by show_form fs))].
Proof.
  intros F. unfold sort_and_print_collection. destruct fs as [|f fs].
  - split; [rx_lit|reflexivity].
  - cbn [map]. change (show_form f :: map show_form fs) with (map show_form (f :: fs)).
    apply (piece_line _ ("(" +++ ":init" +++ " " +++ join " " (sort_str (map show_form (f :: fs))) +++ ")")); [|str].
    apply rx_node; [rx_lit|]. rewrite sort_str_map, <- (flat_map_single form_sx). apply rx_join.
    apply sorted_by_Forall. eapply Forall_impl; [|exact F]. intros g G. now apply rx_form, init_readable.
Qed.
Lemma piece_goal f : readable (untyped f) ->
  piece ("(:goal " +++ show_form f +++ ")" +++ nl) [section_sx ":goal" [form_sx (untyped f)]].
Proof.
  intros G. apply (piece_line _ ("(" +++ ":goal" +++ " " +++ show_form f +++ ")")); [|str].
  apply rx_node; [rx_lit|]. rewrite <- show_untyped. now apply rx_form.
Qed.
Definition metric_section (o : option metric) : option (list sexp) :=
  match o with Some m => Some [name_sx (me_opt m); form_sx (me_expr m)] | None => None end.
Lemma piece_metric o : (forall m, o = Some m -> In (me_opt m) ["maximize"; "minimize"] /\ readable (me_expr m)) ->
  piece (match o with Some m => "(:metric " +++ show_metric m +++ ")" +++ nl | None => "" end)
        (opt_section ":metric" (metric_section o)).
Proof.
  intros H. destruct o as [m|]; [|apply piece_nil]. destruct (H m eq_refl) as [O M].
  apply (piece_line _ ("(" +++ ":metric" +++ " " +++ show_metric m +++ ")")); [|str].
  apply rx_node; [rx_lit|]. unfold show_metric. apply (rx_two _ _ [_] [_]).
  - destruct O as [<-|[<-|[]]]; rx_lit.
  - now apply rx_form.
Qed.

Record shown (p : problem) : Prop := mkShown {
  sh_reqs : ~ In OBJECT_FLUENTS (get_requirements p);
  sh_objects : forall n g, In (n, g) (p_objects p) -> legal_name n /\ (forall t, g = Some t -> legal_type t);
  sh_init : Forall init_form (p_init p);
  sh_goal : readable (untyped (p_goal p));
  sh_metric : forall m, p_metric p = Some m -> In (me_opt m) ["maximize"; "minimize"] /\ readable (me_expr m) }.
Lemma expressible_shown p : expressible_problem p -> shown p.
Proof.
  intros [ER EO EI [EB EG] EM]. constructor; auto.
  - unfold goal_form in EG. now apply condition_readable in EG.
  - intros m M. destruct (EM m M) as (O & _ & F). split; auto. now apply metric_readable.
Qed.
Lemma problem_shown p : legal_name (p_name p) -> legal_name (get_domain_name p) -> shown p ->
  problem_text (show_problem p) (p_name p) (get_domain_name p)
    (problem_sections (req_section (get_requirements p)) (const_section (p_objects p))
       (map form_sx (sorted_by show_form (p_init p))) (form_sx (untyped (p_goal p)))
       (metric_section (p_metric p))).
Proof.
  intros N D E. destruct E as [ER EO EI EG EM].
  assert (B : piece (problem_body p) (SList [SAtom (TKw ":domain"); name_sx (get_domain_name p)]
     :: problem_sections (req_section (get_requirements p)) (const_section (p_objects p))
       (map form_sx (sorted_by show_form (p_init p))) (form_sx (untyped (p_goal p)))
       (metric_section (p_metric p)))).
  { unfold problem_body, problem_sections.
    replace ("(:domain " +++ get_domain_name p +++ ")" +++ nl +++ _) with
      (("(:domain " +++ get_domain_name p +++ ")" +++ nl)
       +++ sort_and_print_collection "(:requirements " (map req_str (get_requirements p)) (")" +++ nl) false
       +++ print_constants "(:objects" (p_objects p)
       +++ sort_and_print_collection "(:init " (map show_form (p_init p)) (")" +++ nl) true
       +++ ("(:goal " +++ show_form (p_goal p) +++ ")" +++ nl)
       +++ match p_metric p with Some m => "(:metric " +++ show_metric m +++ ")" +++ nl | None => "" end) by str.
    apply (piece_app _ [_]).
    { apply (piece_line _ ("(" +++ ":domain" +++ " " +++ get_domain_name p +++ ")")); [|str].
      apply rx_node; [rx_lit|now apply rx_name]. }
    apply piece_app; [now apply piece_reqs|]. apply piece_app.
    { apply (piece_constants ":objects"); [split; [vm_compute; intuition|reflexivity]|].
      apply Forall_forall. intros [n g] Hi. destruct (EO n g Hi) as [H1 H2]. split; auto. destruct g; cbn; auto. }
    apply (piece_app _ [_]); [now apply piece_init|]. apply (piece_app _ [_]); [now apply piece_goal|].
    now apply piece_metric. }
  unfold problem_text. apply rx_read. eapply rx_split; [apply words_problem|].
  eapply (rx_group _ ("define" +++ " " +++ ("(" +++ "problem" +++ " " +++ p_name p +++ ")") +++ nl
                      +++ problem_body p +++ nl)); [|str].
  apply (rx_two _ _ [_]); [rx_lit|]. apply (rx_app _ _ [_]).
  - apply rx_node; [rx_lit|now apply rx_name].
  - apply rx_nl. rewrite <- (app_nil_r (_ :: problem_sections _ _ _ _ _)). apply piece_rx; [exact B|].
    apply (rx_nl ""), rx_nil.
  - cbn; auto.
Qed.

(** ** what constructed problems are like *)
Lemma domain_built_name d : domain_built d -> legal_name (d_name d).
Proof.
  intros (n & rs & ty & cs & ps & dps & fs & acts & H). unfold mk_domain in H.
  apply bind_Ok in H as (n' & N & H). apply parse_name_Ok' in N as (-> & N).
  repeat (apply bind_Ok in H as (? & _ & H)). inversion H; subst. exact N.
Qed.
Lemma objects_NoDup objs : NoDup (map fst (dedup const_eqb objs)).
Proof.
  pose proof (dedup_NoDupE const_eqb const_eqb_equiv objs) as N. induction N as [|[n g] l M N IH]; [constructor|].
  cbn. constructor; auto. intros H. apply in_map_iff in H as ([m h] & E & Hi). cbn in E. subst.
  apply not_true_iff_false in M. apply M. unfold memb. apply existsb_exists. exists (n, h).
  split; auto. apply String.eqb_refl.
Qed.
Lemma problem_reach_names p : problem_reach p ->
  legal_name (p_name p) /\ legal_name (get_domain_name p) /\ NoDup (map fst (p_objects p)).
Proof.
  induction 1 as [n d dn rs objs init goal m p DB H|p d p' R IH DB H].
  - unfold mk_problem in H. apply bind_Ok in H as (n' & N & H). apply bind_Ok in H as ((d', dn') & D & H).
    apply bind_Ok in H as (rs' & _ & H). apply bind_Ok in H as ([] & _ & H). apply bind_Ok in H as ([] & _ & H).
    inversion H; subst. cbn [p_name p_objects]. apply parse_name_Ok' in N as (-> & N). split; auto.
    split; [|apply objects_NoDup]. unfold get_domain_name. cbn [p_domain p_domain_name fst snd].
    unfold parse_domain_and_name in D. destruct d as [d|], dn as [dn|]; try discriminate.
    + apply bind_Ok in D as ([] & _ & D). apply bind_Ok in D as (x & _ & D). inversion D; subst.
      apply domain_built_name. now apply DB.
    + inversion D; subst. apply domain_built_name. now apply DB.
    + apply bind_Ok in D as (x & X & D). inversion D; subst. now apply parse_name_Ok' in X as (-> & X).
  - unfold set_domain in H. inversion H; subst. cbn. destruct IH as (? & _ & ?). split; auto.
    split; auto. now apply domain_built_name.
Qed.

(** ** the problem read back *)
Lemma set_eqb_perm {A} (eqb : A -> A -> bool) l m : is_equiv eqb -> Permutation l m -> set_eqb eqb l m = true.
Proof.
  intros Q P. unfold set_eqb. apply andb_true_iff. split; apply subset_In; intros x Hx; unfold memb;
    apply existsb_exists; exists x; (split; [|apply (eqv_refl _ Q)]).
  - now apply (Permutation_in _ P).
  - now apply (Permutation_in _ (Permutation_sym P)).
Qed.
Lemma set_eqb_sorted (gs fs : list form) : Forall2 eqf gs (sorted_by show_form fs) ->
  set_eqb form_eqb (dedup form_eqb gs) fs = true.
Proof.
  intros F. pose proof form_eqb_equiv as Q. pose proof (set_eqb_equiv _ Q) as SQ.
  apply (eqv_trans _ SQ _ gs); [apply dedup_set_eqb; exact Q|].
  apply (eqv_trans _ SQ _ (sorted_by show_form fs)); [now apply set_eqb_Forall2|].
  apply set_eqb_perm; auto. apply sorted_by_perm.
Qed.
Lemma NoDup_names (l : list const) : NoDup (map fst l) -> NoDupE const_eqb l.
Proof.
  induction l as [|c l IH]; intros X; [constructor|]. inversion X as [|? ? X1 X2]; subst. constructor; auto.
  apply not_true_iff_false. intros K. unfold memb in K. apply existsb_exists in K as (y & Hy & E).
  apply String.eqb_eq in E. apply X1. rewrite E. now apply in_map.
Qed.
Lemma const_section_objects cs : NoDup (map fst cs) -> Forall const_ok cs ->
  exists os, opt_res objects_section (const_section cs) = Ok os
    /\ Permutation (match os with Some d => map snd d | None => [] end) cs
    /\ objs_ok (match os with Some d => d | None => [] end).
Proof.
  intros N F. destruct cs as [|c cs]; [exists None; repeat split; constructor|].
  destruct (parse_constants (c :: cs) N F) as (d & D & P).
  assert (C : constants_by_name d = Ok (map (fun c => (fst c, c)) d)).
  { apply constants_by_name_id.
    - eapply Permutation_NoDup; [|exact N]. symmetry. now apply Permutation_map.
    - eapply Permutation_Forall; [symmetry; exact P|auto]. }
  exists (Some (map (fun c => (fst c, c)) d)). split; [|split].
  - cbn [const_section opt_res]. unfold objects_section. rewrite D. cbn [bind]. now rewrite C.
  - now rewrite map_map, map_id.
  - apply Forall_map, Forall_forall. reflexivity.
Qed.
Lemma req_section_keys rs : ~ In OBJECT_FLUENTS rs -> exists o, opt_res require_keys (req_section rs) = Ok o
  /\ Permutation (match o with Some l => l | None => [] end) rs.
Proof.
  intros N. destruct rs as [|r rs]; [exists None; split; auto; constructor|].
  pose proof (sorted_by_perm req_str (r :: rs)) as P.
  exists (Some (sorted_by req_str (r :: rs))). split; auto. cbn [req_section opt_res].
  rewrite require_keys_sx; auto.
  - intros H. apply N. now apply (Permutation_in _ P).
  - intros E. rewrite E in P. now apply Permutation_nil in P.
Qed.
Lemma metric_section_back o :
  (forall m, o = Some m -> In (me_opt m) ["maximize"; "minimize"] /\ built (me_expr m) /\ metric_form (me_expr m)) ->
  exists o', opt_res metric_spec (metric_section o) = Ok o' /\ option_eqb metric_eqb o' o = true
    /\ option_map show_metric o' = option_map show_metric o.
Proof.
  intros H. destruct o as [m|]; [|exists None; auto]. destruct (H m eq_refl) as (O & B & M).
  pose proof (metric_f_exp_sx (me_expr m) M (built_nff _ B)) as G.
  exists (Some (mkMetric (untyped (me_expr m)) (me_opt m))).
  assert (K : memb String.eqb (me_opt m) ["maximize"; "minimize"] = true) by now apply memb_string_In.
  split; [|split].
  - cbn [metric_section opt_res metric_spec name_sx]. rewrite K, G. cbn [bind]. unfold mk_metric. now rewrite K.
  - cbn. unfold metric_eqb. cbn. fold (eqf (untyped (me_expr m)) (me_expr m)). now rewrite eqf_untyped, String.eqb_refl.
  - cbn [option_map]. unfold show_metric. cbn [me_expr me_opt]. now rewrite show_untyped.
Qed.

Record read_back (q p : problem) : Prop := mkRB {
  rb_name : p_name q = p_name p;
  rb_domain : p_domain q = None;
  rb_domain_name : p_domain_name q = get_domain_name p;
  rb_reqs : set_eqb req_eqb (get_requirements q) (get_requirements p) = true;
  rb_objects : Permutation (p_objects q) (p_objects p);
  rb_init : set_eqb form_eqb (p_init q) (p_init p) = true;
  rb_goal : form_eqb (p_goal q) (p_goal p) = true;
  rb_metric : option_eqb metric_eqb (p_metric q) (p_metric p) = true;
  rb_init_terms : Forall (all_terms (fun t => t_tags t = [] \/ exists c, In c (p_objects p) /\ t = const_term c)) (p_init q);
  rb_goal_terms : all_terms (fun t => t_tags t = []) (p_goal q);
  rb_reqs_of : forall rs, p_reqs q = Some rs -> incl rs (get_requirements p);
  rb_init_text : NoDupE form_eqb (p_init p) -> Permutation (map show_form (p_init q)) (map show_form (p_init p));
  rb_goal_text : show_form (p_goal q) = show_form (p_goal p);
  rb_metric_text : option_map show_metric (p_metric q) = option_map show_metric (p_metric p)
}.
Lemma parse_shown_problem p : problem_reach p -> expressible_problem p ->
  exists q, parse_problem (show_problem p) = Ok q /\ read_back q p.
Proof.
  intros R E. destruct (problem_reach_names p R) as (N & D & ND).
  rewrite (parse_problem_text _ _ _ _ (problem_shown p N D (expressible_shown p E))), problem_rule_sections.
  destruct E as [ER EO EI [EB EG] EM].
  assert (F : Forall const_ok (p_objects p)).
  { apply Forall_forall. intros [n g] Hi. destruct (EO n g Hi) as [H1 H2]. split; auto. destruct g; cbn; auto. }
  destruct (req_section_keys _ ER) as (rs & RS & RP). rewrite RS. cbn [bind].
  destruct (const_section_objects _ ND F) as (os & OS & OP & OK). rewrite OS. cbn [bind].
  destruct (inits_sx _ (sorted_by show_form (p_init p)) OK) as (gs & GS & GQ & GL & GT & GX);
    [now apply sorted_by_Forall|]. rewrite GS. cbn [bind].
  destruct (parse_goal _ EB EG) as (g & G & Q & GoX). rewrite G. cbn [bind].
  destruct (metric_section_back _ EM) as (m & M & MQ & MX). rewrite M. cbn [bind].
  assert (DD : dedup const_eqb (match os with Some d => map snd d | None => [] end)
               = match os with Some d => map snd d | None => [] end).
  { apply dedup_id; [apply const_eqb_equiv|]. clear - OP ND.
    assert (X : NoDup (map fst (match os with Some d => map snd d | None => [] end))).
    { eapply Permutation_NoDup; [|exact ND]. symmetry. now apply Permutation_map. }
    now apply NoDup_names. }
  unfold mk_problem. rewrite (proj2 (parse_name_Ok (p_name p)) N). cbn [bind parse_domain_and_name].
  rewrite (proj2 (parse_name_Ok (get_domain_name p)) D). cbn [bind].
  assert (L : forallb is_literal (dedup form_eqb gs) = true).
  { apply forallb_forall. intros x Hx. apply dedup_In in Hx. rewrite Forall_forall in GL. auto. }
  assert (RB : match parse_requirements None rs with Ok o => Ok (match o with Some r => r | None => [] end) | Err e => Err e end
               = Ok (dedup req_eqb (match rs with Some r => r | None => [] end))).
  { destruct rs; reflexivity. }
  destruct (parse_requirements None rs) as [rs'|] eqn:PR; [|discriminate]. cbn [bind]. rewrite L. cbn [check bind].
  unfold problem_check_consistency. cbn [p_domain fst bind]. eexists. split; [reflexivity|].
  inversion RB as [RB'].
  constructor; cbn [p_name p_domain p_domain_name p_objects p_init p_goal p_metric p_reqs fst snd]; auto.
  - unfold get_requirements at 1. cbn [p_domain p_reqs]. rewrite RB'.
    apply (eqv_trans _ (set_eqb_equiv _ req_eqb_equiv) _ (match rs with Some r => r | None => [] end)).
    + apply dedup_set_eqb. apply req_eqb_equiv.
    + apply set_eqb_perm; auto. apply req_eqb_equiv.
  - now rewrite DD.
  - now apply set_eqb_sorted.
  - apply Forall_forall. intros x Hx. apply dedup_In in Hx. rewrite Forall_forall in GT.
    intros t O. destruct (GT x Hx t O) as [T|(kv & Hk & ->)]; auto. right. exists (snd kv). split; auto.
    apply (Permutation_in _ OP). destruct os as [d|]; [now apply in_map|contradiction].
  - now apply (goal_untagged (form_sx (untyped (p_goal p)))).
  - intros l ->. cbn in RB'. subst l. intros r Hr. apply dedup_In in Hr. now apply (Permutation_in _ RP).
  - intros NI. rewrite (dedup_id _ form_eqb_equiv).
    + rewrite GX. apply Permutation_map, sorted_by_perm.
    + apply (NoDupE_eqf (sorted_by show_form (p_init p))).
      * clear - GQ. induction GQ; constructor; auto. now apply eqf_sym.
      * apply (NoDupE_perm form_eqb form_eqb_equiv (p_init p)); auto. symmetry. apply sorted_by_perm.
Qed.

(** a problem without a domain comes back equal *)
Lemma read_back_eqb q p : read_back q p -> p_domain p = None -> problem_eqb q p = true.
Proof.
  intros [] E. unfold problem_eqb. rewrite rb_name0, String.eqb_refl, rb_domain0, E. cbn [option_eqb andb].
  unfold get_domain_name in *. rewrite rb_domain0, E in *. rewrite rb_domain_name0, String.eqb_refl.
  rewrite rb_reqs0, rb_init0, rb_goal0, rb_metric0. cbn [andb].
  now rewrite set_eqb_perm by (auto using const_eqb_equiv).
Qed.
(** giving the problem read back the domain of the original succeeds and makes them equal *)
Lemma read_back_set_domain q p d : read_back q p -> problem_reach p -> p_domain p = Some d ->
  NoDupE atom_eqb (map fst (d_functions d)) ->
  exists q', set_domain q d = (q', Ok tt) /\ problem_eqb q' p = true.
Proof.
  intros [] R E NF. destruct (problem_reach_ok p R d E) as [DB CK].
  assert (DK : dicts_ok d).
  { destruct DB as (n & rs & ty & cs & ps & dps & fs & acts & H). split; auto.
    apply mk_domain_inv in H as (_ & _ & _ & H & _). eapply mk_types_keys; eauto. }
  apply problem_check_Ok in CK as (C1 & C2 & C3 & C4 & C5); auto.
  unfold set_domain. eexists. split.
  - f_equal. unfold problem_check_consistency. cbn [p_domain]. apply problem_check_Ok; auto.
    split; [reflexivity|]. split.
    { cbn [p_reqs]. intros rs H. unfold get_requirements in rb_reqs_of0. rewrite E in rb_reqs_of0. auto. }
    split; [|split]; cbn [p_objects p_init p_goal].
    + intros c Hc. apply C3. now apply (Permutation_in _ rb_objects0).
    + intros f Hf t O. rewrite Forall_forall in rb_init_terms0. destruct (rb_init_terms0 f Hf t O) as [T|(c & Hc & ->)]; auto.
      unfold term_typed. rewrite T. split; [congruence|contradiction].
    + intros t O. unfold term_typed. rewrite (rb_goal_terms0 t O). split; [congruence|contradiction].
  - unfold problem_eqb, get_domain_name, get_requirements in *.
    cbn [p_name p_domain p_domain_name p_reqs p_objects p_init p_goal p_metric].
    rewrite E in *. cbn [option_eqb]. rewrite rb_name0, !String.eqb_refl.
    rewrite (domain_eqb_refl d DK). rewrite (eqv_refl _ (set_eqb_equiv _ req_eqb_equiv)).
    rewrite rb_init0, rb_goal0, rb_metric0. cbn [andb].
    now rewrite set_eqb_perm by (auto using const_eqb_equiv).
Qed.
