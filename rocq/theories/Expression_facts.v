(** Facts for C78. *)
From Coq Require Import String Ascii List Bool NArith ZArith Lia Permutation.
From Verif Require Import Py Py_facts Names Names_facts Req Reqs Logic Logic_facts Validation Validation_facts Core Core_facts CoreEq_facts Show Parser.
From Verif Require Import Spec Spec_Copy Spec_Expression Built_facts Ops_facts NF_facts Copy_facts Lex_facts NumShow_facts Print_facts Derived_facts2.
Import ListNotations.
Open Scope string_scope.
Open Scope list_scope.

Lemma read_app q a b : read_chars q (a +++ b) = match read_chars q a with Some q' => read_chars q' b | None => None end.
Proof. revert q. induction a as [|c a IH]; intros q; cbn; auto. destruct (read_char q c); auto. Qed.
Lemma bal_nil : balanced "".
Proof. intros n. reflexivity. Qed.
Lemma bal_app a b : balanced a -> balanced b -> balanced (a +++ b).
Proof. intros A B n. rewrite read_app, A. apply B. Qed.
Lemma bal_wrap s : balanced s -> balanced ("(" +++ s +++ ")").
Proof. intros B n. change (read_chars (Inside (S n)) (s +++ ")") = Some (Inside n)). rewrite read_app, B. reflexivity. Qed.
Lemma one_wrap s : balanced s -> one_expression ("(" +++ s +++ ")").
Proof. intros B. change (read_chars (Inside 0) (s +++ ")") = Some Done). rewrite read_app, B. reflexivity. Qed.
Definition quiet_char (c : ascii) : Prop := forall n, read_char (Inside n) c = Some (Inside n).
Lemma bal_chars s : (forall c, In c (list_ascii_of_string s) -> quiet_char c) -> balanced s.
Proof. induction s as [|c s IH]; intros H n; [reflexivity|]. cbn [read_chars]. rewrite (H c) by now left. apply IH. intros d D. apply H. now right. Qed.
Lemma bal_join sep l : balanced sep -> Forall balanced l -> balanced (join sep l).
Proof.
  intros B F. induction F as [|x l X F IH]; [apply bal_nil|]. destruct l as [|y l]; [exact X|].
  change (join sep (x :: y :: l)) with (x +++ sep +++ join sep (y :: l)). auto using bal_app.
Qed.
Lemma bal_concat l : Forall balanced l -> balanced (String.concat "" l).
Proof.
  intros F. induction F as [|x l X F IH]; [apply bal_nil|]. destruct l as [|y l]; [exact X|].
  change (String.concat "" (x :: y :: l)) with (x +++ "" +++ String.concat "" (y :: l)). auto using bal_app, bal_nil.
Qed.
Lemma Ok_inj {A} (x y : A) : Ok x = Ok y -> y = x.
Proof. intros [=]. auto. Qed.

(** blanks are skipped *)
Lemma read_space q c : is_space c = true -> read_char q c = Some q.
Proof. unfold read_char. now intros ->. Qed.
Lemma read_lstrip q s : read_chars q (lstrip s) = read_chars q s.
Proof. induction s as [|c s IH]; cbn; auto. destruct (is_space c) eqn:E; auto. now rewrite (read_space q c E). Qed.
Lemma read_rstrip q s : read_chars q (rstrip s) = read_chars q s.
Proof.
  revert q. induction s as [|c s IH]; intros q; [reflexivity|]. cbn [rstrip read_chars].
  destruct (rstrip s) as [|d r] eqn:R.
  - destruct (is_space c) eqn:E.
    + rewrite (read_space q c E), <- IH. reflexivity.
    + cbn. destruct (read_char q c); auto. now rewrite <- IH.
  - cbn [read_chars] in *. destruct (read_char q c); auto.
Qed.
Lemma read_strip q s : read_chars q (strip s) = read_chars q s.
Proof. unfold strip. now rewrite read_rstrip, read_lstrip. Qed.
Lemma bal_strip s : balanced s -> balanced (strip s).
Proof. intros B n. now rewrite read_strip. Qed.
Lemma read_words q s : read_chars q s = read_chars q (String.concat "" (split_ws s)).
Proof.
  revert q. induction s as [|c s IH]; intros q; [reflexivity|]. cbn [split_ws read_chars].
  destruct (is_space c) eqn:E; [now rewrite (read_space q c E)|].
  destruct s as [|d s]; [reflexivity|]. destruct (is_space d) eqn:E'.
  - remember (String d s) as r. destruct (split_ws r) as [|w ws] eqn:W.
    + cbn [String.concat str1 read_chars]. destruct (read_char q c) as [q'|]; auto. rewrite IH. reflexivity.
    + change (String.concat "" (str1 c :: w :: ws)) with (str1 c +++ "" +++ String.concat "" (w :: ws)). cbn [str1 append read_chars].
      destruct (read_char q c) as [q'|]; auto.
  - remember (String d s) as r. destruct (split_ws r) as [|w ws] eqn:W.
    + cbn [String.concat str1 read_chars]. destruct (read_char q c) as [q'|]; auto. rewrite IH. reflexivity.
    + destruct (read_char q c) as [q'|] eqn:R.
      * rewrite IH. destruct ws; cbn [String.concat append read_chars]; rewrite R; reflexivity.
      * destruct ws; cbn [String.concat append read_chars]; rewrite R; reflexivity.
Qed.
Lemma read_same_words q s t : split_ws s = split_ws t -> read_chars q s = read_chars q t.
Proof. intros H. now rewrite (read_words q s), (read_words q t), H. Qed.
Lemma bal_indent s : balanced s -> balanced (indent "    " s).
Proof. intros B n. rewrite (read_same_words _ (indent "    " s) s); auto. apply split_ws_indent. repeat constructor. Qed.

(** names *)
Lemma bal_name s : identifier s -> balanced s.
Proof.
  intros (c & r & -> & C & R). apply bal_chars. cbn [list_ascii_of_string].
  assert (Q : forall d, In d (letters ++ Names_facts.digits ++ dash_underscore) -> quiet_char d).
  { assert (X : forallb (fun d => negb (is_space d) && negb (Ascii.eqb d ";") && negb (Ascii.eqb d "(") && negb (Ascii.eqb d ")")) (letters ++ Names_facts.digits ++ dash_underscore) = true) by (vm_compute; reflexivity).
    rewrite forallb_forall in X. intros d D n. specialize (X d D). rewrite !andb_true_iff, !negb_true_iff in X. destruct X as (((X1 & X2) & X3) & X4).
    unfold read_char. now rewrite X1, X2, X3, X4. }
  intros d [<-|D]; apply Q; auto. apply in_or_app. now left.
Qed.
Lemma bal_legal s : legal_name s -> balanced s.
Proof. intros [H _]. now apply bal_name. Qed.
Lemma bal_type s : legal_type s -> balanced s.
Proof. intros [H _]. now apply bal_name. Qed.
(** numbers *)
Lemma bal_uint u : balanced (DecimalString.NilEmpty.string_of_uint u).
Proof. induction u as [|u IH|u IH|u IH|u IH|u IH|u IH|u IH|u IH|u IH|u IH]; intros n; cbn; auto; apply IH. Qed.
Lemma bal_N n : balanced (show_N n).
Proof. unfold show_N, DecimalString.NilZero.string_of_uint. destruct (N.to_uint n) eqn:E; try (intros k; reflexivity); rewrite <- E; apply bal_uint. Qed.
Lemma bal_pad e m : balanced (pad_digits e m).
Proof. revert m. induction e as [|e IH]; intros m; cbn; [apply bal_nil|]. apply bal_app; auto using bal_N. Qed.
Lemma bal_dec m e : balanced (show_dec_N m e).
Proof.
  unfold show_dec_N. destruct (norm_dec m e) as [m' [|e']]; repeat apply bal_app; auto using bal_N, bal_pad; intros k; reflexivity.
Qed.
Lemma bal_num v : (forall s, v = NStr s -> balanced s) -> balanced (show_num v).
Proof.
  intros H. destruct v as [z|m e|s]; cbn [show_num].
  - destruct z; cbn [show_int]; [intros k; reflexivity|apply bal_N|]. apply bal_app; [intros k; reflexivity|apply bal_N].
  - apply bal_app; [destruct (m <? 0)%Z; intros k; reflexivity|apply bal_dec].
  - now apply H.
Qed.

(** * Formulas *)
Fixpoint named (f : form) : Prop :=
  match f with
  | FPred n ts | FNumFun n ts => balanced n /\ Forall made_term ts
  | FEq l r => made_term l /\ made_term r
  | FNumVal _ => True
  | FBinFun _ ops | FBin _ ops => fold_right (fun g p => named g /\ p) True ops
  | FNot g => named g
  | FQuant _ vs c => Forall made_var vs /\ named c
  | FWhen c e => named c /\ named e
  | FForall vs e => Forall made_var vs /\ named e
  end.
Lemma named_ops c f ops : ops_if c f = Some ops -> named f -> Forall named ops.
Proof. intros O. apply ops_if_raw in O. subst. destruct c; cbn [named raw_node]; rewrite fold_and_Forall; tauto. Qed.
Lemma named_mk_op c ops : Forall named ops -> named (mk_op c ops).
Proof.
  apply mk_op_again; [apply named_ops|]. intros l A F. destruct c; cbn [raw_node named]; now rewrite fold_and_Forall.
Qed.
Lemma made_named f : made f -> named f.
Proof.
  induction 1 using made_ind'.
  - apply mk_pred_iff in H0 as (-> & L & _). cbn. split; auto. now apply bal_legal.
  - pose proof (mk_eq_Ok _ _ _ H1). subst. cbn. auto.
  - pose proof (mk_numfun_Ok _ _ _ H0). subst. cbn. split; auto. unfold mk_numfun in H0. apply bind_Ok in H0 as (n' & N & _).
    apply parse_function_Ok' in N as [_ [N _]]. now apply bal_name.
  - cbn. auto.
  - now apply named_mk_op.
  - now apply named_mk_op.
  - exact IHmade.
  - cbn. split; auto. now apply Forall_dedup_sub.
  - cbn. auto.
  - cbn. split; auto. now apply Forall_dedup_sub.
Qed.
Lemma bal_var v : made_var v -> balanced (v_name v) /\ Forall balanced (v_tags v).
Proof.
  intros (n & c & H). apply mk_var_Ok in H as (-> & L & _ & T). cbn. split; [now apply bal_legal|].
  apply Forall_dedup_sub. eapply Forall_impl; [|exact T]. apply bal_type.
Qed.
Lemma bal_q s : balanced s -> balanced ("?" +++ s).
Proof. intros B n. cbn. apply B. Qed.
Lemma bal_term t : made_term t -> balanced (t_name t) /\ Forall balanced (t_tags t) /\ balanced (show_term t).
Proof.
  destruct t as [n g|v]; cbn [made_term].
  - intros (n' & g' & H). apply mk_const_Ok in H as (E & L & G). injection E as <- <-. apply bal_legal in L. cbn. split; auto. split; auto.
    destruct g as [g|]; cbn; constructor; auto. now apply bal_type.
  - intros H. apply bal_var in H as [A B]. cbn. split; [exact A|]. split; [exact B|]. now apply (bal_q (v_name v)).
Qed.
Lemma Forall_mapped {A B} (P : B -> Prop) (f : A -> B) l : Forall (fun x => P (f x)) l -> Forall P (map f l).
Proof. induction 1; cbn; auto. Qed.
Lemma bal_terms ts : Forall made_term ts -> Forall balanced (map show_term ts).
Proof. intros F. apply Forall_mapped. eapply Forall_impl; [|exact F]. intros t T. now apply bal_term. Qed.
Definition body_of_atom (n : string) (ts : list term) : string := match ts with [] => n | _ => n +++ " " +++ join " " (map show_term ts) end.
Lemma show_atom_wrap n ts : balanced n -> Forall made_term ts -> exists b, show_atom n ts = "(" +++ b +++ ")" /\ balanced b.
Proof.
  intros N F. exists (body_of_atom n ts). split.
  - destruct ts; cbn [show_atom body_of_atom]; auto. now rewrite !append_assoc.
  - destruct ts as [|t ts]; cbn [body_of_atom]; auto. apply bal_app; auto. apply bal_app; [intros k; reflexivity|].
    apply bal_join; [intros k; reflexivity|now apply bal_terms].
Qed.
Lemma bal_typed ps : Forall made_term ps -> balanced (typed_parameters ps).
Proof.
  intros F. apply bal_strip, bal_join; [intros k; reflexivity|]. apply Forall_mapped. eapply Forall_impl; [|exact F]. intros t T.
  apply bal_term in T as (A & B & C). unfold show_param. destruct (t_tags t) as [|g gs] eqn:E; auto.
  apply (bal_app "?"); [intros k; reflexivity|]. apply bal_app; auto. apply (bal_app " - "); [intros k; reflexivity|]. apply bal_join; [intros k; reflexivity|auto].
Qed.
Lemma bal_qvars vs : Forall made_var vs -> balanced (join " " (map show_qvar vs)).
Proof.
  intros F. apply bal_join; [intros k; reflexivity|]. apply Forall_mapped. eapply Forall_impl; [|exact F]. intros v T.
  apply bal_var in T as [A B]. unfold show_qvar, show_var. apply bal_app; [now apply bal_q|]. destruct (v_tags v); [apply bal_nil|].
  apply (bal_app " - "); [intros k; reflexivity|]. apply bal_join; [intros k; reflexivity|auto].
Qed.
Definition is_number (f : form) : bool := match f with FNumVal _ => true | _ => false end.
Lemma show_wrapped f : named f -> plain_numbers f ->
  if is_number f then balanced (show_form f) else exists b, show_form f = "(" +++ b +++ ")" /\ balanced b.
Proof.
  induction f using form_ind'; cbn [named plain_numbers is_number show_form]; intros N P.
  - now apply show_atom_wrap.
  - destruct N as [N1 N2]. apply bal_term in N1 as (_ & _ & N1). apply bal_term in N2 as (_ & _ & N2).
    exists ("= " +++ show_term l +++ " " +++ show_term r). split; [now rewrite !append_assoc|]. repeat apply bal_app; auto; intros k; reflexivity.
  - now apply show_atom_wrap.
  - apply bal_num. intros s ->. exact P.
  - exists (bfun_symbol k +++ " " +++ join " " (map show_form ops)). split; [now rewrite !append_assoc|].
    apply bal_app; [destruct k; intros j; reflexivity|]. apply bal_app; [intros j; reflexivity|]. apply bal_join; [intros j; reflexivity|].
    apply Forall_mapped. rewrite fold_and_Forall in N, P. rewrite Forall_forall in *. intros x X. specialize (H x X (N x X) (P x X)).
    destruct (is_number x); auto. destruct H as (b & -> & B). now apply bal_wrap.
  - exists (bop_symbol k +++ " " +++ join " " (map show_form ops)). split; [now rewrite !append_assoc|].
    apply bal_app; [destruct k; intros j; reflexivity|]. apply bal_app; [intros j; reflexivity|]. apply bal_join; [intros j; reflexivity|].
    apply Forall_mapped. rewrite fold_and_Forall in N, P. rewrite Forall_forall in *. intros x X. specialize (H x X (N x X) (P x X)).
    destruct (is_number x); auto. destruct H as (b & -> & B). now apply bal_wrap.
  - exists ("not " +++ show_form f). split; [now rewrite !append_assoc|]. apply bal_app; [intros j; reflexivity|].
    specialize (IHf N P). destruct (is_number f); auto. destruct IHf as (b & -> & B). now apply bal_wrap.
  - destruct N as [V N]. exists (quant_symbol q +++ " (" +++ join " " (map show_qvar vs) +++ ") " +++ show_form f). split; [now rewrite !append_assoc|].
    assert (F : balanced (show_form f)). { specialize (IHf N P). destruct (is_number f); auto. destruct IHf as (b & -> & B). now apply bal_wrap. }
    replace (" (" +++ join " " (map show_qvar vs) +++ ") " +++ show_form f) with (" " +++ ("(" +++ join " " (map show_qvar vs) +++ ")") +++ " " +++ show_form f) by (rewrite !append_assoc; reflexivity).
    apply bal_app; [destruct q; intros j; reflexivity|]. apply bal_app; [intros j; reflexivity|]. apply bal_app; [apply bal_wrap; now apply bal_qvars|]. apply bal_app; auto. intros j; reflexivity.
  - destruct N as [N1 N2], P as [P1 P2].
    assert (F : forall g, (if is_number g then balanced (show_form g) else exists b, show_form g = "(" +++ b +++ ")" /\ balanced b) -> balanced (show_form g)).
    { intros g G. destruct (is_number g); auto. destruct G as (b & -> & B). now apply bal_wrap. }
    specialize (F _ (IHf1 N1 P1)) as F1. specialize (F _ (IHf2 N2 P2)) as F2.
    exists ("when " +++ show_form f1 +++ " " +++ show_form f2). split; [now rewrite !append_assoc|]. repeat apply bal_app; auto; intros j; reflexivity.
  - destruct N as [V N]. exists ("forall (" +++ typed_parameters (map TVar vs) +++ ") " +++ show_form f). split; [now rewrite !append_assoc|].
    assert (F : balanced (show_form f)). { specialize (IHf N P). destruct (is_number f); auto. destruct IHf as (b & -> & B). now apply bal_wrap. }
    replace ("forall (" +++ typed_parameters (map TVar vs) +++ ") " +++ show_form f) with ("forall " +++ ("(" +++ typed_parameters (map TVar vs) +++ ")") +++ " " +++ show_form f) by (rewrite !append_assoc; reflexivity).
    apply bal_app; [intros j; reflexivity|]. apply bal_app; [apply bal_wrap, bal_typed, Forall_mapped; exact V|]. apply bal_app; auto. intros j; reflexivity.
Qed.
Lemma bal_form f : made f -> plain_numbers f -> balanced (show_form f).
Proof. intros M P. pose proof (show_wrapped f (made_named f M) P) as H. destruct (is_number f); auto. destruct H as (b & -> & B). now apply bal_wrap. Qed.
Lemma one_form f : made f -> plain_numbers f -> (forall v, f <> FNumVal v) -> one_expression (show_form f).
Proof.
  intros M P V. pose proof (show_wrapped f (made_named f M) P) as H. destruct f; cbn [is_number] in H; try (destruct H as (b & -> & B); now apply one_wrap).
  now destruct (V v).
Qed.

(** * Actions, domains, problems *)
Lemma show_action_wrap a : made_action a -> plain_action a -> exists b, show_action a = "(" +++ b +++ ")" /\ balanced b.
Proof.
  intros (n & ps & p & e & M & T & Mp & Me) [Pp Pe]. unfold mk_action in M. apply bind_Ok in M as (n' & N & M). apply parse_name_Ok' in N as [-> N]. apply bal_legal in N.
  injection M as <-. cbn [a_pre a_eff] in *. unfold show_action. cbn [a_name a_params a_pre a_eff].
  exists (":action " +++ n +++ nl +++ "    :parameters " +++ ("(" +++ typed_parameters ps +++ ")") +++ nl
    +++ match p with Some f => "    :precondition " +++ show_form f +++ nl | None => "" end
    +++ match e with Some f => "    :effect " +++ show_form f +++ nl | None => "" end). split.
  - rewrite !append_assoc. cbn [append]. rewrite ?append_assoc. reflexivity.
  - apply bal_app; [intros j; reflexivity|]. apply bal_app; auto. apply bal_app; [intros j; reflexivity|]. apply bal_app; [intros j; reflexivity|].
    apply bal_app; [apply bal_wrap; now apply bal_typed|]. apply bal_app; [intros j; reflexivity|]. apply bal_app.
    + destruct p as [f|]; [|apply bal_nil]. repeat apply bal_app; try (intros j; reflexivity). apply bal_form; auto.
    + destruct e as [f|]; [|apply bal_nil]. repeat apply bal_app; try (intros j; reflexivity). apply bal_form; auto.
Qed.
Lemma bal_action a : made_action a -> plain_action a -> balanced (show_action a).
Proof. intros M P. destruct (show_action_wrap a M P) as (b & -> & B). now apply bal_wrap. Qed.
Lemma one_action a : made_action a -> plain_action a -> one_expression (show_action a).
Proof. intros M P. destruct (show_action_wrap a M P) as (b & -> & B). now apply one_wrap. Qed.

Lemma bal_collection pre items post m : balanced (pre +++ post) -> balanced (pre +++ join " " (sort_str items) +++ post) -> balanced (sort_and_print_collection pre items post m).
Proof. intros A B. unfold sort_and_print_collection. destruct items; [destruct m; auto; apply bal_nil|exact B]. Qed.
Lemma bal_sorted items : Forall balanced items -> balanced (join " " (sort_str items)).
Proof. intros F. apply bal_join; [intros j; reflexivity|]. rewrite Forall_forall in *. intros x X. apply F. now apply sort_str_In. Qed.
Lemma group_In {V} (l : list (option string * V)) k vs v : In (k, vs) (group_by l) -> In v vs -> In (k, v) l.
Proof.
  intros G I. destruct (group_by_spec l) as (_ & _ & P). apply (Permutation_in _ P). unfold ungroup. apply in_flat_map. exists (k, vs). split; auto.
  apply in_map_iff. exists v. auto.
Qed.
Lemma group_nonempty {V} (l : list (option string * V)) k vs : In (k, vs) (group_by l) -> exists v, In (k, v) l.
Proof.
  intros G. destruct (group_by_spec l) as (_ & F & _). rewrite Forall_forall in F. specialize (F _ G). destruct vs as [|v vs]; [now destruct F|].
  exists v. eapply group_In; eauto. now left.
Qed.
Lemma group_get_In {V} (l : list (option string * V)) k v : In v (group_get k (group_by l)) -> In (k, v) l.
Proof.
  unfold group_get. destruct (dict_get _ k (group_by l)) as [vs|] eqn:E; [|intros []]. intros I. apply dict_get_In in E as (k' & J & Q).
  apply (group_In l k' vs v) in I; auto. destruct k, k'; cbn in Q; try discriminate; auto. apply String.eqb_eq in Q. now subst.
Qed.
Lemma bal_typed_lists {V} (f : V -> string) pre (l : list (option string * V)) post :
  (forall k v, In (k, v) l -> balanced (f v)) -> (forall t v, In (Some t, v) l -> balanced t) ->
  exists b, balanced b /\ forall q, read_chars q (print_typed_lists f pre (group_by l) post) = read_chars q (pre +++ b +++ post).
Proof.
  intros Hf Ht. unfold print_typed_lists. set (srt := sort_by _ _).
  assert (S : Forall balanced (map (show_group f) srt)).
  { apply Forall_mapped, Forall_forall. intros [k vs] I. unfold srt in I. apply (Permutation_in _ (sort_perm _ _)) in I. apply filter_In in I as [I K]. cbn [fst snd] in *.
    destruct k as [t|]; [|discriminate]. unfold show_group. cbn [fst snd]. apply bal_app.
    - apply bal_sorted, Forall_mapped, Forall_forall. intros v Hv. apply (Hf (Some t)). eapply group_In; eauto.
    - destruct (group_nonempty _ _ _ I) as (v & Hv). repeat apply bal_app; try (intros j; reflexivity). eauto. }
  apply bal_concat in S. destruct (group_get None (group_by l)) as [|u us] eqn:U.
  - exists (" " +++ String.concat "" (map (show_group f) srt)). split; [apply bal_app; auto; intros j; reflexivity|].
    intros q. rewrite read_app, read_strip, <- read_app. now rewrite !append_assoc.
  - assert (B : balanced (join " " (sort_str (map f (u :: us))))).
    { apply bal_sorted, Forall_mapped, Forall_forall. intros v Hv. rewrite <- U in Hv. apply group_get_In in Hv. eauto. }
    destruct (String.eqb _ _).
    + exists "". split; [apply bal_nil|]. reflexivity.
    + exists (" " +++ String.concat "" (map (show_group f) srt) +++ join " " (sort_str (map f (u :: us)))). split; [repeat apply bal_app; auto; intros j; reflexivity|].
      intros q. now rewrite !append_assoc.
Qed.
Lemma bal_section pre b post : balanced b -> (forall n, read_chars (Inside n) pre = Some (Inside (S n))) -> (forall n, read_chars (Inside (S n)) post = Some (Inside n)) ->
  balanced (pre +++ b +++ post).
Proof. intros B P Q n. rewrite read_app, P, read_app, B. apply Q. Qed.
Lemma bal_reqs rs : balanced (sort_and_print_collection "(:requirements " (map req_str rs) (")" +++ nl) false).
Proof.
  unfold sort_and_print_collection. destruct (map req_str rs) eqn:E; [apply bal_nil|]. rewrite <- E. apply bal_section; try (intros n; reflexivity).
  apply bal_sorted, Forall_mapped, Forall_forall. intros r _ n. destruct r; reflexivity.
Qed.
Lemma bal_constants pre cs : (forall n, read_chars (Inside n) pre = Some (Inside (S n))) -> Forall made_const cs -> balanced (print_constants pre cs).
Proof.
  intros P F. unfold print_constants. destruct cs as [|c0 cs0] eqn:E; [apply bal_nil|]. rewrite <- E in *. clear E. rewrite Forall_forall in F.
  destruct (bal_typed_lists (fun n => n) pre (map (fun c => (snd c, fst c)) cs) (")" +++ nl)) as (b & B & R).
  - intros k v I. apply in_map_iff in I as ([n g] & [= <- <-] & I). apply F in I. now apply bal_term in I.
  - intros t v I. apply in_map_iff in I as ([n g] & [= -> <-] & I). apply F in I. apply bal_term in I as (_ & I & _). cbn in I. now inversion I.
  - intros n. rewrite R. apply bal_section; auto; intros m; reflexivity.
Qed.
Lemma bal_skeleton f : made (FNumFun (fst f) (snd f)) -> balanced (function_skeleton f).
Proof.
  intros M. apply made_named in M as [N F]. unfold function_skeleton. destruct (snd f) as [|t ts]; [now apply bal_wrap|].
  replace ("(" +++ fst f +++ String.concat "" (map show_skeleton_arg (t :: ts)) +++ ")") with ("(" +++ (fst f +++ String.concat "" (map show_skeleton_arg (t :: ts))) +++ ")") by (now rewrite !append_assoc).
  apply bal_wrap, bal_app; auto. apply bal_concat, Forall_mapped. eapply Forall_impl; [|exact F]. intros x X. apply bal_term in X as (A & B & _).
  unfold show_skeleton_arg. apply bal_app; [intros n; reflexivity|]. apply bal_app; auto. destruct (sort_str (t_tags x)) as [|g gs] eqn:E; [apply bal_nil|].
  apply bal_app; [intros n; reflexivity|]. rewrite Forall_forall in B. apply B. apply sort_str_In. rewrite E. now left.
Qed.
Lemma bal_functions fs : Forall (fun kv => made (FNumFun (fst (fst kv)) (snd (fst kv)))) fs -> (forall f t, In (f, Some t) fs -> balanced t) ->
  balanced (print_functions fs).
Proof.
  intros F T. unfold print_functions. destruct fs as [|c cs] eqn:E; [apply bal_nil|]. rewrite <- E in *. clear E. rewrite Forall_forall in F.
  destruct (bal_typed_lists function_skeleton "(:functions" (map (fun kv => (snd kv, fst kv)) fs) (")" +++ nl)) as (b & B & R).
  - intros k v I. apply in_map_iff in I as ([f g] & [= <- <-] & I). apply F in I. now apply bal_skeleton.
  - intros t v I. apply in_map_iff in I as ([f g] & [= -> <-] & I). eauto.
  - intros n. rewrite R. apply bal_section; auto; intros m; reflexivity.
Qed.
Lemma bal_predicates ps : Forall (fun p => made (FPred (fst p) (snd p))) ps -> balanced (print_predicates ps).
Proof.
  intros F. unfold print_predicates. apply bal_strip, bal_concat, Forall_mapped, Forall_forall. intros p I. apply (Permutation_in _ (sort_perm _ _)) in I.
  rewrite Forall_forall in F. apply F, made_named in I as [N T]. unfold show_pred_decl. destruct (snd p) as [|t ts].
  - replace ("(" +++ fst p +++ ")" +++ " ") with (("(" +++ fst p +++ ")") +++ " ") by (now rewrite !append_assoc). apply bal_app; [now apply bal_wrap|intros n; reflexivity].
  - replace ("(" +++ fst p +++ String.concat "" (map show_pred_arg (t :: ts)) +++ ") " +++ " ") with (("(" +++ (fst p +++ String.concat "" (map show_pred_arg (t :: ts))) +++ ")") +++ "  ") by (now rewrite !append_assoc).
    apply bal_app; [|intros n; reflexivity]. apply bal_wrap, bal_app; auto. apply bal_concat, Forall_mapped. eapply Forall_impl; [|exact T]. intros x X. apply bal_term in X as (A & B & _).
    unfold show_pred_arg. apply bal_app; [intros n; reflexivity|]. apply bal_app; auto.
    assert (S : Forall balanced (sort_str (t_tags x))) by (rewrite Forall_forall in *; intros y Y; apply B; now apply sort_str_In).
    destruct (sort_str (t_tags x)) as [|g [|h gs]]; [apply bal_nil| |].
    + apply bal_app; [intros n; reflexivity|]. now inversion S.
    + change (" - (either " +++ join " " (g :: h :: gs) +++ ")") with (" - " +++ "(" +++ "either " +++ join " " (g :: h :: gs) +++ ")").
      apply bal_app; [intros n; reflexivity|]. rewrite <- (append_assoc "either "). apply bal_wrap, bal_app; [intros n; reflexivity|]. apply bal_join; auto. intros n; reflexivity.
Qed.
Lemma types_legal t rs sk t' : mk_types t rs sk = Ok t' -> forall k v, In (k, v) t' -> legal_type k /\ (forall p, v = Some p -> legal_type p).
Proof.
  unfold mk_types. intros H. apply bind_Ok in H as (x & H & K). apply bind_Ok in K as ([] & _ & K). injection K as <-. unfold to_types in H.
  apply bind_Ok in H as (l & M & H). injection H as <-.
  assert (F : Forall (fun kv : string * option string => legal_type (fst kv) /\ (forall p, snd kv = Some p -> legal_type p)) (dict_of_list String.eqb l)).
  { apply dict_of_list_Forall. apply mapR_Ok in M. induction M as [|a b l1 l2 E M IH]; constructor; auto.
    apply bind_Ok in E as (k & A & E). apply bind_Ok in E as (v & B & E). injection E as <-. cbn [fst snd]. apply parse_type_Ok' in A as [-> A]. split; auto.
    intros p ->. unfold to_type_value in B. destruct (snd a) as [[|c s]|]; try discriminate. apply bind_Ok in B as (n & N & B). injection B as <-. now apply parse_type_Ok' in N as [-> N]. }
  rewrite Forall_forall in F. intros k v I. exact (F _ I).
Qed.
Lemma bal_remaining s2s : (forall k t, In t (group_get (Some k) s2s) -> balanced t) -> forall fuel rem s, Forall balanced rem ->
  print_remaining fuel s2s rem = Ok s -> balanced s.
Proof.
  intros G. induction fuel as [|fuel IH]; intros rem s F H; destruct rem as [|r0 rem0] eqn:E; cbn [print_remaining] in H; try discriminate; try (injection H as <-; apply bal_nil).
  rewrite <- E in *. clear E. destruct (find _ rem) as [p|] eqn:Q; [|discriminate]. apply bind_Ok in H as (rest & R & H). injection H as <-.
  apply find_some in Q as [Q _]. rewrite Forall_forall in F. apply bal_app.
  - repeat apply bal_app; try (intros n; reflexivity); [apply bal_sorted, Forall_forall; eauto|auto].
  - eapply IH; [|exact R]. apply Forall_forall. intros x X. apply filter_In in X as [X _]. auto.
Qed.
Lemma bal_types ty rs sk d s : mk_types ty rs sk = Ok d -> print_types_with_parents d = Ok s -> balanced s.
Proof.
  intros M H. pose proof (types_legal _ _ _ _ M) as L. unfold print_types_with_parents in H. destruct d as [|k0 d0] eqn:E; [injection H as <-; apply bal_nil|].
  rewrite <- E in *. clear E. unfold print_types in H. set (g := group_by _) in *. apply bind_Ok in H as (rest & R & H). apply Ok_inj in H. subst s.
  assert (G : forall k t, In t (group_get k g) -> balanced t).
  { intros k t I. apply group_get_In in I. apply in_map_iff in I as ([a v] & [= <- <-] & I). apply L in I as [I _]. now apply bal_type. }
  assert (K : Forall balanced (some_keys g)).
  { apply Forall_forall. intros k I. unfold some_keys in I. apply in_flat_map in I as ([[k'|] vs] & I & J); cbn in J; [|destruct J]. destruct J as [<-|[]].
    apply group_nonempty in I as (v & I). apply in_map_iff in I as ([a w] & [= -> <-] & I). apply L in I as [_ I]. apply bal_type. now apply I. }
  assert (B : balanced (nl +++ "    " +++ join " " (sort_str (no_parents g)) +++ " - object" +++ nl)).
  { apply bal_app; [intros n; reflexivity|]. apply bal_app; [intros n; reflexivity|]. apply bal_app; [|intros n; reflexivity]. apply bal_sorted, Forall_forall. intros x X.
    unfold no_parents in X. apply filter_In in X as [X _]. apply dedup_In in X. apply in_app_or in X as [X|X]; [|apply in_app_or in X as [X|X]; eauto].
    apply filter_In in X as [X _]. rewrite Forall_forall in K. auto. }
  assert (Rb : balanced rest).
  { eapply bal_remaining; [|shelve|exact R]. intros k t. apply G.
    Unshelve. rewrite Forall_forall in *. intros x X. apply (proj1 (sort_str_In _ _)) in X. apply filter_In in X as [X _]. auto. }
  set (first := nl +++ "    " +++ join " " (sort_str (no_parents g)) +++ " - object" +++ nl) in *. clearbody first.
  intros n. rewrite read_app. change (read_chars (Inside n) "(:types") with (Some (Inside (S n))). cbv beta iota. rewrite read_app, B, read_app, Rb. reflexivity.
Qed.

Lemma bal_derived x : made_derived x -> plain_numbers (dp_cond x) -> balanced (show_derived x).
Proof.
  intros [M1 M2] P. unfold show_derived.
  assert (B : balanced (print_predicates [(dp_name x, dp_terms x)])) by (apply bal_predicates; constructor; [exact M1|constructor]).
  assert (C : balanced (show_form (dp_cond x))) by (apply bal_form; auto).
  intros n. rewrite read_app. change (read_chars (Inside n) "(:derived ") with (Some (Inside (S n))). cbv beta iota. rewrite read_app, B, read_app.
  change (read_chars (Inside (S n)) " ") with (Some (Inside (S n))). cbv beta iota. rewrite read_app, C. reflexivity.
Qed.
Lemma bal_items items : Forall balanced items -> balanced (sort_and_print_collection "" items "" false).
Proof.
  intros F. unfold sort_and_print_collection. destruct items eqn:E; [apply bal_nil|]. rewrite <- E in *. clear E. apply bal_app; [apply bal_nil|]. apply bal_app; [now apply bal_sorted|apply bal_nil].
Qed.
Lemma bal_domain_body d s : made_domain d -> plain_domain d -> domain_body d = Ok s -> balanced s.
Proof.
  intros (n & rs & ty & cs & ps & dps & fs & acts & M & F1 & F2 & F3 & F4 & F5) (P1 & P2 & P3) H.
  apply mk_domain_inv in M as (N & PN & R & T & TC & C & P & DP & FS & A & K).
  unfold domain_body in H. apply bind_Ok in H as (tys & Ht & H). apply Ok_inj in H. subst s.
  apply bal_app; [apply bal_reqs|]. apply bal_app; [eapply bal_types; eauto|].
  apply bal_app; [apply bal_constants; [intros k; reflexivity|rewrite C; now apply Forall_dedup_sub]|].
  apply bal_app.
  { assert (B : balanced (print_predicates (d_predicates d))) by (apply bal_predicates; rewrite P; now apply Forall_dedup_sub).
    destruct (d_predicates d); [apply bal_nil|]. apply bal_section; auto; intros k; reflexivity. }
  apply bal_app; [apply bal_functions; [rewrite FS; auto|auto]|].
  apply bal_app; apply bal_items, Forall_mapped.
  - rewrite DP in *. apply (Forall_dedup_sub derived_eqb) in F3. rewrite Forall_forall in *. intros x X. apply bal_derived; auto.
  - rewrite A in *. apply (Forall_dedup_sub action_eqb) in F5. rewrite Forall_forall in *. intros x X. apply bal_app; [apply bal_action; auto|intros k; reflexivity].
Qed.
Lemma one_layout pre body : balanced body -> (forall r, read_chars Before (pre +++ r) = read_chars (Inside 0) r) ->
  one_expression (remove_empty_lines (pre +++ nl +++ indent "    " body +++ nl +++ ")")).
Proof.
  intros B P. unfold one_expression. rewrite (read_same_words _ _ _ (split_ws_remove _)). rewrite P, read_app.
  change (read_chars (Inside 0) nl) with (Some (Inside 0)). cbv beta iota. rewrite read_app, (bal_indent _ B). reflexivity.
Qed.
Lemma one_domain d s : made_domain d -> plain_domain d -> show_domain d = Ok s -> one_expression s.
Proof.
  intros M P H. unfold show_domain in H. apply bind_Ok in H as (body & Hb & H). apply Ok_inj in H. subst s. pose proof (bal_domain_body _ _ M P Hb) as B.
  pose proof (made_domain_name _ M) as N. apply parse_name_Ok' in N as [_ N]. apply bal_legal in N.
  rewrite <- (append_assoc (d_name d)), <- (append_assoc "(define (domain "). apply one_layout; auto.
  intros r. rewrite !append_assoc, read_app. change (read_chars Before "(define (domain ") with (Some (Inside 1)). cbv beta iota. rewrite read_app, N. reflexivity.
Qed.
Lemma bal_problem_body p : made_problem p -> plain_problem p -> balanced (problem_body p).
Proof.
  intros M (P1 & P2 & P3). pose proof (made_problem_parts _ M) as (N & D & DN & R & O & _ & I & _ & _ & G & Me & _). unfold problem_body.
  assert (Nd : balanced (get_domain_name p)).
  { unfold get_domain_name. destruct (p_domain p) as [d|]; [specialize (D d eq_refl); apply made_domain_name in D; apply parse_name_Ok' in D as [_ D]|apply parse_name_Ok' in DN as [_ DN]]; now apply bal_legal. }
  assert (E : forall a b c r, "(:domain " +++ a +++ b +++ c +++ r = ("(:domain " +++ a +++ b +++ c) +++ r) by (intros; now rewrite !append_assoc).
  rewrite E. apply bal_app; [apply bal_section; auto; intros k; reflexivity|]. clear E.
  apply bal_app; [apply bal_reqs|]. apply bal_app; [apply bal_constants; auto; intros k; reflexivity|].
  apply bal_app.
  { unfold sort_and_print_collection. destruct (map show_form (p_init p)) eqn:E; [intros k; reflexivity|]. rewrite <- E. apply bal_section; try (intros k; reflexivity).
    apply bal_sorted, Forall_mapped. rewrite Forall_forall in *. intros x X. apply bal_form; auto. }
  assert (E : forall a b c r, "(:goal " +++ a +++ b +++ c +++ r = ("(:goal " +++ a +++ b +++ c) +++ r) by (intros; now rewrite !append_assoc).
  rewrite E. apply bal_app; [apply bal_section; [apply bal_form; auto| |]; intros k; reflexivity|].
  destruct (p_metric p) as [m|]; [|apply bal_nil]. destruct (Me m eq_refl) as (e & o & H & Ee). unfold mk_metric in H. apply bind_Ok in H as ([] & Q & H).
  apply Ok_inj in H. subst m. apply bal_section; try (intros k; reflexivity). unfold show_metric. cbn [me_opt me_expr].
  apply check_Ok in Q. unfold memb in Q. apply existsb_exists in Q as (x & X & Q). apply String.eqb_eq in Q. subst x.
  apply bal_app; [destruct X as [<-|[<-|[]]]; intros k; reflexivity|]. apply bal_app; [intros k; reflexivity|]. apply bal_form; auto. apply (P3 _ eq_refl).
Qed.
Lemma one_problem p : made_problem p -> plain_problem p -> one_expression (show_problem p).
Proof.
  intros M P. pose proof (bal_problem_body _ M P) as B. pose proof (made_problem_parts _ M) as (N & _). apply parse_name_Ok' in N as [_ N]. apply bal_legal in N.
  unfold show_problem. rewrite <- (append_assoc (p_name p)), <- (append_assoc "(define (problem "). apply one_layout; auto.
  intros r. rewrite !append_assoc, read_app. change (read_chars Before "(define (problem ") with (Some (Inside 1)). cbv beta iota. rewrite read_app, N. reflexivity.
Qed.
