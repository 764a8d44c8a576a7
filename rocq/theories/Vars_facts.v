(** Printed lists of typed variables and what they parse to. *)
From Coq Require Import String List Bool Arith Lia Permutation.
From Verif Require Import Py Names Logic Validation Core Lexer Show Parser Spec_Parse Spec_Print.
From Verif Require Import Py_facts Names_facts Built_facts Logic_facts Lex_facts Parse_facts Text_facts Print_facts.
Import ListNotations.
Open Scope string_scope.
Open Scope list_scope.

(** ** a variable with its types, as printed *)
Definition type_sx (gs : list string) : list sexp :=
  match gs with
  | [] => []
  | [g] => [dash; name_sx g]
  | _ => [dash; SList (name_sx "either" :: map name_sx gs)]
  end.
Definition item_sx (p : string * list string) : list sexp := var_sx (fst p) ++ type_sx (snd p).

(** what such a list means: an untyped variable has the types of the next one *)
Fixpoint meaning (l : list (string * list string)) : list (string * list string) :=
  match l with
  | [] => []
  | (n, gs) :: r =>
      (n, match gs with
          | [] => match meaning r with (_, hs) :: _ => hs | [] => [] end
          | _ => gs
          end) :: meaning r
  end.
Definition head_types_of (l : list (string * list string)) : list string :=
  match meaning l with (_, hs) :: _ => hs | [] => [] end.

Lemma written_type_sx gs : gs <> [] -> exists t, type_sx gs = [dash; t] /\ written_type t gs.
Proof.
  destruct gs as [|g [|h gs]]; [contradiction| |]; intros _; eexists; (split; [reflexivity|]).
  - left. eauto.
  - right. split; [discriminate|reflexivity].
Qed.
Lemma written_items l : Forall (fun p => NoDup (snd p)) l -> forall pend, exists G T,
  written_vars (flat_map var_sx pend ++ flat_map item_sx l) G T
  /\ assigned G T = map (fun n => (n, head_types_of l)) pend ++ meaning l.
Proof.
  induction 1 as [|[n gs] l N F IH]; intros pend.
  - exists [], pend. cbn. rewrite !app_nil_r. split; [constructor|reflexivity].
  - cbn [snd] in N. destruct gs as [|g gs'] eqn:EG.
    + destruct (IH (pend ++ [n])) as (G & T & W & A). exists G, T. split.
      * rewrite flat_map_app, <- app_assoc in W. exact W.
      * rewrite A, map_app, <- app_assoc. unfold head_types_of at 2. cbn [meaning map app].
        reflexivity.
    + rewrite <- EG in *. assert (NE : gs <> []) by (rewrite EG; discriminate).
      destruct (written_type_sx gs NE) as (t & E & WT).
      destruct (IH []) as (G & T & W & A). exists ((pend ++ [n], gs) :: G), T. split.
      * cbn [flat_map]. unfold item_sx at 1. cbn [fst snd]. rewrite E.
        replace (flat_map var_sx pend ++ (var_sx n ++ [dash; t]) ++ flat_map item_sx l)
          with (flat_map var_sx (pend ++ [n]) ++ dash :: t :: flat_map item_sx l).
        -- apply wv_group; auto. destruct pend; discriminate.
        -- rewrite flat_map_app, <- !app_assoc. reflexivity.
      * assert (HD : head_types_of ((n, gs) :: l) = gs).
        { unfold head_types_of. cbn. rewrite EG. reflexivity. }
        rewrite HD. unfold assigned in *. cbn [flat_map fst snd]. rewrite <- app_assoc, A.
        rewrite dedup_string_id by auto. rewrite map_app, <- app_assoc. cbn [map app meaning].
        f_equal. f_equal. rewrite EG. reflexivity.
Qed.
Lemma parse_items l r : Forall (fun p => NoDup (snd p)) l ->
  (typed_list_variable (flat_map item_sx l) = Ok r <->
   r = meaning l /\ legal_items r /\ repeats_agree r).
Proof.
  intros F. destruct (written_items l F []) as (G & T & W & A). cbn in W, A.
  rewrite (typed_list_variable_Ok _ _ _ _ W), A. tauto.
Qed.


(** ** when nothing changes *)
Definition item_var (p : string * list string) (v : var) : Prop :=
  fst p = v_name v /\ same_set (snd p) (v_tags v).
Lemma same_set_nil gs : same_set gs [] -> gs = [].
Proof. intros H. destruct gs as [|g gs]; auto. destruct (proj1 (H g)). left. auto. Qed.
Lemma meaning_same l vs : Forall2 item_var l vs ->
  (Forall2 item_var (meaning l) vs <-> untyped_last vs).
Proof.
  intros F. split.
  - induction F as [|[n gs] v l vs [E1 E2] F IH]; intros H.
    + exists [], []. auto.
    + cbn in E1, E2, H. inversion H as [|? ? ? ? [_ H1] H2]; subst. cbn in H1. clear H.
      destruct (IH H2) as (a & b & E & Fa & Fb). destruct gs as [|g gs].
      * assert (EV : v_tags v = []).
        { apply same_set_nil. intros x. specialize (E2 x). tauto. }
        exists [], (v :: vs). split; auto. split; auto. constructor; auto.
        rewrite E in *. destruct a as [|w a]; auto. exfalso.
        inversion H2 as [|[m ms] ? mr ? [_ H3] H4 EM]; subst. rewrite <- EM in H1.
        rewrite EV in H1. apply same_set_nil in H1. cbn in H3. subst ms.
        inversion Fa as [|? ? N _]; subst. apply N, same_set_nil. intros x. specialize (H3 x). tauto.
      * exists (v :: a), b. split; [cbn; now rewrite E|]. split; auto. constructor; auto.
        intros E0. rewrite E0 in E2. apply same_set_nil in E2. discriminate.
  - intros (a & b & -> & Fa & Fb). revert l F. induction Fa as [|w a N Fa IH]; intros l F.
    + cbn [app] in F. induction F as [|[n gs] v l vs [E1 E2] F IH]; [constructor|].
      cbn [fst snd] in *. inversion Fb; subst. specialize (IH H2).
      rewrite H1 in E2. apply same_set_nil in E2. subst gs.
      cbn [meaning]. constructor; auto. split; auto. cbn [snd].
      destruct (meaning l) as [|[m ms] r]; [intros x; rewrite H1; tauto|]. rewrite H1.
      destruct vs as [|w vs]; [inversion IH|]. inversion IH as [|? ? ? ? [_ H3] _]; subst. cbn in H3.
      apply Forall_inv in H2. now rewrite H2 in H3.
    + inversion F as [|[n gs] ? l' ? [E1 E2] F']; subst. cbn. constructor.
      * split; auto. cbn in *. destruct gs; auto. exfalso. apply N, same_set_nil.
        intros x. specialize (E2 x). tauto.
      * now apply IH.
Qed.
Lemma items_agree l vs : Forall2 item_var l vs -> (repeats_agree l <-> repeats_same vs).
Proof.
  intros F. split.
  - intros R v w Hv Hw E.
    assert (X : forall v, In v vs -> exists gs, In (v_name v, gs) l /\ same_set gs (v_tags v)).
    { clear -F. induction F as [|[n gs] v l vs [E1 E2] F IH]; [contradiction|]. cbn in *. intros w [<-|H].
      - exists gs. split; auto. left. congruence.
      - destruct (IH w H) as (hs & ? & ?). eauto. }
    destruct (X v Hv) as (gs & G1 & G2), (X w Hw) as (hs & H1 & H2). rewrite <- E in H1.
    intros x. rewrite <- (G2 x), <- (H2 x). now apply (R (v_name v)).
  - intros R n gs hs Hg Hh.
    assert (X : forall p, In p l -> exists v, In v vs /\ item_var p v).
    { clear -F. induction F as [|p v l vs I F IH]; [contradiction|]. intros q [<-|H].
      - exists v. split; auto. now left.
      - destruct (IH q H) as (w & ? & ?). exists w. split; auto. now right. }
    destruct (X _ Hg) as (v & V & V1 & V2), (X _ Hh) as (w & W & W1 & W2). cbn in *.
    intros x. rewrite (V2 x), (W2 x). apply R; auto. congruence.
Qed.
Lemma meaning_names l : map fst (meaning l) = map fst l.
Proof. induction l as [|[n gs] l IH]; cbn; congruence. Qed.
Lemma meaning_In n gs l : In (n, gs) (meaning l) -> gs = [] \/ exists m, In (m, gs) l.
Proof.
  revert n gs. induction l as [|[m hs] l IH]; [contradiction|]. intros n gs [E|H].
  - inversion E; subst. destruct hs as [|h hs].
    + destruct (meaning l) as [|[k ks] r] eqn:EM; auto. destruct (IH k ks) as [?|[x ?]]; [now left|auto|].
      right. exists x. right. auto.
    + right. exists n. left. auto.
  - destruct (IH _ _ H) as [?|[x ?]]; auto. right. exists x. now right.
Qed.
Lemma meaning_legal l : legal_items l -> legal_items (meaning l).
Proof.
  intros L n gs H. split.
  - assert (I : In n (map fst l)).
    { rewrite <- meaning_names. apply in_map_iff. exists (n, gs). auto. }
    apply in_map_iff in I as ([k ks] & E & I). cbn in E. subst k. now apply (L n ks).
  - apply meaning_In in H as [->|[m H]]; [constructor|]. now apply (L m gs).
Qed.
Lemma meaning_NoDup l : Forall (fun p => NoDup (snd p)) l -> Forall (fun p => NoDup (snd p)) (meaning l).
Proof.
  intros F. apply Forall_forall. intros [n gs] H. apply meaning_In in H as [->|[m H]]; [constructor|].
  rewrite Forall_forall in F. exact (F _ H).
Qed.

(** ** variables *)
Definition var_of (p : string * list string) : var := mkVar (fst p) (snd p).
Lemma mk_vars_id l : legal_items l -> Forall (fun p => NoDup (snd p)) l ->
  mk_vars l = Ok (map var_of l).
Proof.
  intros L N. unfold mk_vars. apply mapR_Ok. induction N as [|[n gs] l N F IH]; constructor.
  - cbn [fst snd] in *. destruct (L n gs (or_introl eq_refl)) as [L1 L2].
    apply mk_var_Ok. cbn [coll_items]. rewrite dedup_string_id by auto. repeat split; auto; apply L1.
  - apply IH. intros a hs Hi. apply L. right. auto.
Qed.
Lemma var_of_same l vs : Forall2 same_var (map var_of l) vs <-> Forall2 item_var l vs.
Proof.
  split.
  - revert vs. induction l as [|p l IH]; intros vs H; inversion H; subst; constructor; auto.
  - induction 1; cbn; constructor; auto.
Qed.

(** the variables that come back from the tokens of a list *)
Definition back (l : list sexp) : res (list var) := let* tl := typed_list_variable l in mk_vars tl.
Lemma back_items its ws : Forall (fun p => NoDup (snd p)) its -> legal_items its ->
  (back (flat_map item_sx its) = Ok ws <->
   ws = map var_of (meaning its) /\ repeats_agree (meaning its)).
Proof.
  intros N L. unfold back. split.
  - intros H. apply bind_Ok in H as (tl & H1 & H2). apply parse_items in H1 as (-> & _ & R); auto.
    rewrite mk_vars_id in H2; [|now apply meaning_legal|now apply meaning_NoDup]. inversion H2. auto.
  - intros (-> & R). rewrite (proj2 (parse_items its (meaning its) N)); [|split; [auto|split; [now apply meaning_legal|auto]]].
    cbn. apply mk_vars_id; [now apply meaning_legal|now apply meaning_NoDup].
Qed.
Lemma back_same its vs : Forall (fun p => NoDup (snd p)) its -> legal_items its ->
  Forall2 item_var its vs ->
  ((exists ws, back (flat_map item_sx its) = Ok ws /\ Forall2 same_var ws vs) <->
   untyped_last vs /\ repeats_same vs).
Proof.
  intros N L F. split.
  - intros (ws & H & S'). apply back_items in H as (-> & R); auto. apply (proj1 (var_of_same _ _)) in S'.
    split; [now apply (meaning_same its)|now apply (items_agree _ vs S')].
  - intros (U & R). apply (meaning_same its) in U; auto.
    exists (map var_of (meaning its)). split; [|now apply var_of_same].
    apply back_items; auto. split; auto. now apply (items_agree _ vs).
Qed.

(** ** the printers *)
Definition items_of (vs : list var) : list (string * list string) :=
  map (fun v => (v_name v, v_tags v)) vs.
Lemma items_of_var vs : Forall2 item_var (items_of vs) vs.
Proof. induction vs; constructor; auto. split; auto. intros x. reflexivity. Qed.
Lemma items_of_NoDup vs : Forall legal_var vs -> Forall (fun p => NoDup (snd p)) (items_of vs).
Proof. intros F. apply Forall_map. eapply Forall_impl; [|exact F]. intros v (_ & _ & H). exact H. Qed.
Lemma items_of_legal vs : Forall legal_var vs -> legal_items (items_of vs).
Proof.
  intros F n gs H. apply in_map_iff in H as (v & E & H). inversion E; subst.
  rewrite Forall_forall in F. destruct (F v H) as (? & ? & _). auto.
Qed.

(** a parameter and its types, without (either ...) *)
Definition plain_sx (v : var) : list sexp :=
  var_sx (v_name v) ++ match v_tags v with [] => [] | gs => dash :: map name_sx gs end.
Lemma rx_dash b l : rx b l -> rx (" - " +++ b) (dash :: l).
Proof.
  intros H. change (dash :: l) with ([dash] ++ l). apply (rx_pre " - "); [rx_lit|reflexivity|exact H].
Qed.
Lemma rx_qvar v : legal_var v -> rx (show_qvar v) (plain_sx v).
Proof.
  intros (L & T & _). unfold show_qvar, plain_sx, show_var. apply rx_app.
  - now apply rx_var.
  - destruct (v_tags v) as [|g gs]; [apply rx_nil|]. apply rx_dash, rx_words.
    eapply Forall_impl; [|exact T]. intros t [H _]. exact H.
  - destruct (v_tags v); cbn; auto.
Qed.
Lemma show_param_qvar v : show_param (TVar v) = show_qvar v.
Proof.
  unfold show_param, show_qvar, show_var. cbn [t_tags t_name show_term]. destruct (v_tags v); auto.
  cbn [String.append]. now rewrite append_nil_r.
Qed.
Lemma rx_qvars vs : Forall legal_var vs -> rx (join " " (map show_qvar vs)) (flat_map plain_sx vs).
Proof. intros F. apply rx_join. eapply Forall_impl; [|exact F]. intros v. apply rx_qvar. Qed.
Lemma rx_params vs : Forall legal_var vs ->
  rx (typed_parameters (map TVar vs)) (flat_map plain_sx vs).
Proof.
  intros F. unfold typed_parameters. apply rx_strip. rewrite map_map.
  rewrite (map_ext _ _ show_param_qvar). now apply rx_qvars.
Qed.
Lemma plain_items vs : Forall one_type vs -> flat_map plain_sx vs = flat_map item_sx (items_of vs).
Proof.
  induction 1 as [|v vs H F IH]; auto. cbn [flat_map items_of map]. f_equal; auto.
  unfold one_type in H. unfold plain_sx, item_sx. cbn [fst snd]. f_equal.
  destruct (v_tags v) as [|g [|h gs]]; auto. cbn in H. lia.
Qed.
Lemma tl_vars_plain vs : ~ Forall one_type vs -> forall seen, tl_vars seen (flat_map plain_sx vs) = None.
Proof.
  induction vs as [|v vs IH]; intros H seen; [destruct H; constructor|].
  cbn [flat_map]. unfold plain_sx. unfold var_sx. cbn [app].
  change (SAtom (TWord (v_name v))) with (name_sx (v_name v)).
  destruct (v_tags v) as [|g [|h gs]] eqn:E; cbn [app map tl_vars].
  - rewrite IH; auto. intros F. apply H. constructor; auto. unfold one_type. rewrite E. cbn. lia.
  - cbn. rewrite IH; auto. intros F. apply H. constructor; auto. unfold one_type. rewrite E. cbn. lia.
  - reflexivity.
Qed.
Lemma back_plain vs : Forall legal_var vs ->
  ((exists ws, back (flat_map plain_sx vs) = Ok ws /\ Forall2 same_var ws vs) <->
   Forall one_type vs /\ untyped_last vs /\ repeats_same vs).
Proof.
  intros L. assert (D : forall v, {one_type v} + {~ one_type v}) by (intros; apply le_dec).
  destruct (Forall_dec one_type D vs) as [O|O].
  - rewrite plain_items by auto.
    rewrite back_same; [tauto|now apply items_of_NoDup|now apply items_of_legal|apply items_of_var].
  - split; [|tauto]. intros (ws & H & _). exfalso. unfold back, typed_list_variable in H.
    rewrite tl_vars_plain in H by auto. discriminate.
Qed.
Lemma variables_in_rx s l : rx s l -> variables_in s = back l.
Proof. intros H. unfold variables_in. now rewrite (rx_read _ _ H). Qed.

(** ** predicates *)
Definition sorted_items (vs : list var) : list (string * list string) :=
  map (fun v => (v_name v, sort_str (v_tags v))) vs.
Lemma sorted_items_var vs : Forall2 item_var (sorted_items vs) vs.
Proof.
  induction vs; constructor; auto. split; auto. intros x. cbn. apply sort_str_In.
Qed.
Lemma sort_str_NoDup l : NoDup l -> NoDup (sort_str l).
Proof. intros H. eapply Permutation_NoDup; [|exact H]. apply Permutation_sym, sort_str_perm. Qed.
Lemma sort_str_legal l : Forall legal_type l -> Forall legal_type (sort_str l).
Proof. rewrite !Forall_forall. intros H x Hx. apply H. now apply sort_str_In. Qed.
Lemma sorted_items_NoDup vs : Forall legal_var vs -> Forall (fun p => NoDup (snd p)) (sorted_items vs).
Proof.
  intros F. apply Forall_map. eapply Forall_impl; [|exact F]. intros v (_ & _ & H). now apply sort_str_NoDup.
Qed.
Lemma sorted_items_legal vs : Forall legal_var vs -> legal_items (sorted_items vs).
Proof.
  intros F n gs H. apply in_map_iff in H as (v & E & H). inversion E; subst.
  rewrite Forall_forall in F. destruct (F v H) as (? & ? & _). split; auto. now apply sort_str_legal.
Qed.
Lemma rx_pred_arg v : legal_var v ->
  rx (show_pred_arg (TVar v)) (item_sx (v_name v, sort_str (v_tags v))).
Proof.
  intros (L & T & _). apply sort_str_legal in T. unfold show_pred_arg. cbn [t_name t_tags].
  unfold item_sx. cbn [fst snd].
  change (" ?" +++ v_name v +++ ?x) with (" " +++ (("?" +++ v_name v) +++ x)).
  apply rx_space. apply rx_app.
  - now apply rx_var.
  - destruct (sort_str (v_tags v)) as [|g [|h gs]]; [apply rx_nil| |].
    + apply rx_dash, rx_type. now inversion T.
    + change (" - (either " +++ ?x) with (" - " +++ "(either " +++ x). apply rx_dash.
      apply (rx_group _ ("either " +++ join " " (g :: h :: gs))); [|cbn; now rewrite ?append_assoc].
      change (name_sx "either" :: ?l) with ([name_sx "either"] ++ l). apply (rx_pre "either "); [rx_lit|reflexivity|].
      apply rx_words. eapply Forall_impl; [|exact T]. intros t [H _]. exact H.
  - destruct (sort_str (v_tags v)) as [|g [|h gs]]; cbn; auto.
Qed.

Lemma back_pred vs : Forall legal_var vs -> repeats_same vs ->
  ((exists ws, back (flat_map item_sx (sorted_items vs)) = Ok ws /\ Forall2 same_var ws vs) <->
   untyped_last vs).
Proof.
  intros L R. rewrite back_same; [tauto|now apply sorted_items_NoDup|now apply sorted_items_legal|].
  apply sorted_items_var.
Qed.
Lemma rx_decl n f (g : var -> list sexp) vs : identifier n ->
  Forall (fun v => rx (f (TVar v)) (g v) /\ exists s, f (TVar v) = " " +++ s) vs ->
  rx ("(" +++ n +++ String.concat "" (map f (map TVar vs)) +++ ")")
     [SList (name_sx n :: flat_map g vs)].
Proof.
  intros N F.
  apply (rx_group _ (n +++ String.concat "" (map f (map TVar vs)))); [|cbn; now rewrite append_assoc].
  change (name_sx n :: flat_map g vs) with ([name_sx n] ++ flat_map g vs). apply rx_app.
  - now apply rx_word.
  - rewrite map_map. apply rx_concat_delim. eapply Forall_impl; [|exact F].
    intros v (H & s & E). split; auto. rewrite E. split; [cbn; auto|discriminate].
  - destruct F as [|v vs (_ & s & E) F]; cbn [map]; [cbn; auto|]. rewrite concat_cons, E. cbn. auto.
Qed.
Lemma rx_trailing s w l : rx s l -> all_space w -> rx (s +++ w) l.
Proof.
  intros (N & E & F) W. split; [apply no_comment_app; split; auto; now apply no_comment_space|].
  split; auto. rewrite lex_cut; [|exact N|destruct w; cbn in *; auto; unfold delim; now rewrite (proj1 W)].
  rewrite (lex_all_space w W), app_nil_r. exact E.
Qed.
Lemma flat_map_map {A B C} (f : A -> B) (g : B -> list C) l :
  flat_map g (map f l) = flat_map (fun x => g (f x)) l.
Proof. induction l; cbn; congruence. Qed.
Lemma rx_pred_decl n vs : legal_name n -> Forall legal_var vs ->
  rx (show_pred_decl (n, map TVar vs)) [SList (name_sx n :: flat_map item_sx (sorted_items vs))].
Proof.
  intros N F. unfold show_pred_decl. cbn [fst snd].
  assert (H : rx ("(" +++ n +++ String.concat "" (map show_pred_arg (map TVar vs)) +++ ")")
     [SList (name_sx n :: flat_map item_sx (sorted_items vs))]).
  { unfold sorted_items. rewrite flat_map_map.
    apply rx_decl; [apply N|]. eapply Forall_impl; [|exact F]. intros v L. split; [now apply rx_pred_arg|].
    unfold show_pred_arg. cbn [t_name t_tags].
    eexists. change (" ?" +++ ?x) with (" " +++ ("?" +++ x)). reflexivity. }
  destruct vs as [|v vs].
  - cbn [map String.concat] in *. change ("" +++ ")") with ")" in H.
    replace ("(" +++ n +++ ")" +++ " ") with (("(" +++ n +++ ")") +++ " ") by now rewrite !append_assoc.
    apply rx_trailing; auto. cbn; auto.
  - cbn [map] in *. set (c := String.concat _ _) in *.
    replace ("(" +++ n +++ c +++ ") " +++ " ") with (("(" +++ n +++ c +++ ")") +++ "  ").
    + apply rx_trailing; auto. cbn; auto.
    + now rewrite !append_assoc.
Qed.
Lemma same_var_consistent ws vs : Forall2 same_var ws vs -> repeats_same vs ->
  name_consistent (map TVar ws).
Proof.
  intros F R t u Ht Hu E g. apply in_map_iff in Ht as (v & <- & Hv), Hu as (w & <- & Hw). cbn in *.
  assert (X : forall v, In v ws -> exists v', In v' vs /\ same_var v v').
  { clear -F. induction F as [|a b ws vs S' F IH]; [contradiction|]. intros x [<-|H].
    - exists b. split; auto. now left.
    - destruct (IH x H) as (y & ? & ?). exists y. split; auto. now right. }
  destruct (X v Hv) as (v' & V & V1 & V2), (X w Hw) as (w' & W & W1 & W2).
  rewrite (V2 g), (W2 g). apply R; auto. congruence.
Qed.
Lemma map_TVar_inj a : forall b, map TVar a = map TVar b -> a = b.
Proof. induction a as [|x a IH]; intros [|y b] E; try discriminate; auto. inversion E; subst. f_equal. auto. Qed.
Lemma predicate_in_decl n vs : legal_name n -> Forall legal_var vs -> repeats_same vs ->
  ((exists ws, predicate_in (show_pred_decl (n, map TVar vs)) = Ok (n, map TVar ws)
               /\ Forall2 same_var ws vs) <-> untyped_last vs).
Proof.
  intros N L R. rewrite <- (back_pred vs L R). unfold predicate_in.
  rewrite (rx_read _ _ (rx_pred_decl n vs N L)). unfold atomic_formula_skeleton, name_sx, back. split.
  - intros (ws & H & S'). exists ws. split; auto. apply bind_Ok in H as (tl & H1 & H). rewrite H1.
    apply bind_Ok in H as (vars & H2 & H). cbn [bind]. rewrite H2.
    apply bind_Ok in H as (f & H3 & H). apply mk_pred_iff in H3 as (-> & _).
    inversion H. f_equal. now apply map_TVar_inj.
  - intros (ws & H & S'). exists ws. split; auto. apply bind_Ok in H as (tl & H1 & H). rewrite H1.
    cbn [bind]. rewrite H. cbn [bind].
    rewrite (proj2 (mk_pred_iff n (map TVar ws) (FPred n (map TVar ws)))); [reflexivity|]. split; auto. split; auto.
    now apply (same_var_consistent ws vs).
Qed.

(** ** functions: only the first type is printed *)
Definition first_items (vs : list var) : list (string * list string) :=
  map (fun v => (v_name v, firstn 1 (sort_str (v_tags v)))) vs.
Lemma firstn_legal (l : list string) P : Forall P l -> Forall P (firstn 1 l).
Proof. intros H. destruct H; constructor; auto. Qed.
Lemma rx_skeleton_arg v : legal_var v ->
  rx (show_skeleton_arg (TVar v)) (item_sx (v_name v, firstn 1 (sort_str (v_tags v)))).
Proof.
  intros (L & T & _). apply sort_str_legal in T. unfold show_skeleton_arg. cbn [t_name t_tags].
  unfold item_sx. cbn [fst snd].
  change (" ?" +++ v_name v +++ ?x) with (" " +++ (("?" +++ v_name v) +++ x)).
  apply rx_space. apply rx_app.
  - now apply rx_var.
  - destruct (sort_str (v_tags v)) as [|g gs]; [apply rx_nil|].
    apply rx_dash, rx_type. now inversion T.
  - destruct (sort_str (v_tags v)); cbn; auto.
Qed.
Lemma rx_skeleton n vs : identifier n -> Forall legal_var vs ->
  rx (function_skeleton (n, map TVar vs)) [SList (name_sx n :: flat_map item_sx (first_items vs))].
Proof.
  intros N F. unfold function_skeleton. cbn [fst snd].
  assert (H : rx ("(" +++ n +++ String.concat "" (map show_skeleton_arg (map TVar vs)) +++ ")")
     [SList (name_sx n :: flat_map item_sx (first_items vs))]).
  { unfold first_items. rewrite flat_map_map.
    apply rx_decl; auto. eapply Forall_impl; [|exact F]. intros v L. split; [now apply rx_skeleton_arg|].
    unfold show_skeleton_arg. cbn [t_name t_tags].
    eexists. change (" ?" +++ ?x) with (" " +++ ("?" +++ x)). reflexivity. }
  destruct vs as [|v vs]; exact H.
Qed.
Lemma one_type_first v : one_type v -> firstn 1 (sort_str (v_tags v)) = v_tags v.
Proof. unfold one_type. destruct (v_tags v) as [|g [|h gs]]; auto. cbn. lia. Qed.
Lemma first_items_one vs : Forall one_type vs -> first_items vs = items_of vs.
Proof.
  induction 1 as [|v vs H F IH]; auto. cbn. f_equal; auto. f_equal. now apply one_type_first.
Qed.
Lemma first_items_legal vs : Forall legal_var vs -> legal_items (first_items vs).
Proof.
  intros F n gs H. apply in_map_iff in H as (v & E & H). inversion E; subst.
  rewrite Forall_forall in F. destruct (F v H) as (? & T & _). split; auto.
  now apply firstn_legal, sort_str_legal.
Qed.
Lemma first_items_NoDup vs : Forall (fun p => NoDup (snd p)) (first_items vs).
Proof.
  apply Forall_map, Forall_forall. intros v _. cbn [snd]. destruct (sort_str (v_tags v)) as [|g gs]; repeat constructor.
  intros [].
Qed.
Lemma first_item_one vs : Forall legal_var vs -> Forall2 item_var (meaning (first_items vs)) vs ->
  Forall one_type vs.
Proof.
  intros L H. induction vs as [|v vs IH]; constructor.
  - cbn in H. inversion H as [|? ? ? ? [_ E] _]; subst. cbn [snd] in E.
    inversion L as [|? ? (_ & _ & N) _]; subst. unfold one_type.
    destruct (v_tags v) as [|g [|h gs]] eqn:ET; cbn; auto. exfalso.
    pose proof (fun x => sort_str_In x (v_tags v)) as SI.
    rewrite <- ET in *. destruct (sort_str (v_tags v)) as [|k ks].
    + apply (proj2 (SI g)). rewrite ET. now left.
    + cbn [firstn] in E. assert (Eg : g = k).
      { destruct (proj2 (E g)) as [?|[]]; auto. rewrite ET. now left. }
      assert (Eh : h = k).
      { destruct (proj2 (E h)) as [?|[]]; auto. rewrite ET. right. now left. }
      subst. rewrite ET in N. inversion N. apply H2. now left.
  - inversion L; subst. cbn in H. inversion H; subst. auto.
Qed.
Lemma back_first vs : Forall legal_var vs ->
  ((exists ws, back (flat_map item_sx (first_items vs)) = Ok ws /\ Forall2 same_var ws vs) <->
   Forall one_type vs /\ untyped_last vs /\ repeats_same vs).
Proof.
  intros L. split.
  - intros (ws & H & S'). assert (O : Forall one_type vs).
    { apply back_items in H as (-> & _); [|apply first_items_NoDup|now apply first_items_legal].
      apply (proj1 (var_of_same _ _)) in S'. now apply first_item_one. }
    split; auto. rewrite first_items_one in H by auto.
    apply (back_same (items_of vs)); [now apply items_of_NoDup|now apply items_of_legal|apply items_of_var|eauto].
  - intros (O & U). rewrite first_items_one by auto.
    apply (back_same (items_of vs)); auto; [now apply items_of_NoDup|now apply items_of_legal|apply items_of_var].
Qed.
Lemma function_in_skeleton n vs : legal_function n -> n <> "total-cost" -> Forall legal_var vs ->
  ((exists ws, function_in (function_skeleton (n, map TVar vs)) = Ok (n, map TVar ws)
               /\ Forall2 same_var ws vs) <->
   Forall one_type vs /\ untyped_last vs /\ repeats_same vs).
Proof.
  intros N NT L. rewrite <- (back_first vs L). unfold function_in.
  rewrite (rx_read _ _ (rx_skeleton n vs (proj1 N) L)). unfold atomic_function_skeleton, name_sx, back.
  rewrite (proj2 (String.eqb_neq n "total-cost") NT). split.
  - intros (ws & H & S'). exists ws. split; auto. apply bind_Ok in H as (tl & H1 & H). rewrite H1.
    apply bind_Ok in H as (vars & H2 & H). cbn [bind]. rewrite H2.
    apply bind_Ok in H as (f & H3 & H). apply mk_numfun_Ok in H3 as ->.
    inversion H. f_equal. now apply map_TVar_inj.
  - intros (ws & H & S'). exists ws. split; auto. apply bind_Ok in H as (tl & H1 & H). rewrite H1.
    cbn [bind]. rewrite H. unfold mk_numfun. cbn [bind]. now rewrite (proj2 (parse_function_Ok n) N).
Qed.
