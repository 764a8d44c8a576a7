(** Facts: constructors, equality and checks do not look at names (C70). *)
From Coq Require Import String Ascii List Bool Arith Lia.
From Verif Require Import Py Names Reqs Logic Validation Core Spec_Rename Py_facts Logic_facts.
Import ListNotations.
Open Scope string_scope.
Open Scope list_scope.

(** ** the Python building blocks *)
Lemma rmap_bind {A B C D} (f : A -> C) (g : B -> D) x k k' :
  (forall a, x = Ok a -> k' (f a) = rmap g (k a)) -> bind (rmap f x) k' = rmap g (bind x k).
Proof. destruct x; cbn; auto. Qed.
Lemma bind_same {A B D} (g : B -> D) (x : res A) k k' :
  (forall a, x = Ok a -> k' a = rmap g (k a)) -> bind x k' = rmap g (bind x k).
Proof. destruct x; cbn; auto. Qed.
Lemma bind_unit {A} (x : res unit) (k k' : unit -> res A) : (k tt = k' tt) -> bind x k = bind x k'.
Proof. destruct x as [[]|]; cbn; auto. Qed.
Lemma bind_eq {A} (x y : res unit) (k k' : unit -> res A) : x = y -> (k tt = k' tt) -> bind x k = bind y k'.
Proof. intros ->. apply bind_unit. Qed.
Lemma rmap_rmap {A B C} (f : A -> B) (g : B -> C) x : rmap g (rmap f x) = rmap (fun a => g (f a)) x.
Proof. now destruct x. Qed.
Lemma rmap_ext {A B} (f g : A -> B) x : (forall a, f a = g a) -> rmap f x = rmap g x.
Proof. destruct x; cbn; intros H; congruence. Qed.
Lemma rmap_id {A} (f : A -> A) x : (forall a, f a = a) -> rmap f x = x.
Proof. destruct x; cbn; intros H; congruence. Qed.
Lemma mapR_nat {A B C D} (f : A -> res B) (f' : C -> res D) (g : A -> C) (h : B -> D) l :
  Forall (fun x => f' (g x) = rmap h (f x)) l -> mapR f' (map g l) = rmap (map h) (mapR f l).
Proof.
  induction 1 as [|x l E F IH]; cbn; auto. rewrite E, IH. destruct (f x); cbn; auto. destruct (mapR f l); cbn; auto.
Qed.
Lemma mapR_nat' {A B C D} (f : A -> res B) (f' : C -> res D) (g : A -> C) (h : B -> D) l :
  (forall x, f' (g x) = rmap h (f x)) -> mapR f' (map g l) = rmap (map h) (mapR f l).
Proof. intros H. apply mapR_nat. apply Forall_forall. auto. Qed.
Lemma iterR_nat {A C} (f : A -> res unit) (f' : C -> res unit) (g : A -> C) l :
  Forall (fun x => f' (g x) = f x) l -> iterR f' (map g l) = iterR f l.
Proof. induction 1 as [|x l E F IH]; cbn; auto. now rewrite E, IH. Qed.
Lemma iterR_nat' {A C} (f : A -> res unit) (f' : C -> res unit) (g : A -> C) l :
  (forall x, f' (g x) = f x) -> iterR f' (map g l) = iterR f l.
Proof. intros H. apply iterR_nat. apply Forall_forall. auto. Qed.

Section Eq.
  Context {A B : Type} (e : A -> A -> bool) (e' : B -> B -> bool) (g : A -> B).
  Hypothesis G : forall a b, e' (g a) (g b) = e a b.
  Lemma memb_nat x l : memb e' (g x) (map g l) = memb e x l.
  Proof. unfold memb. induction l as [|y l IH]; cbn; auto. now rewrite G, IH. Qed.
  Lemma dedup_from_nat l : forall seen, dedup_from e' (map g seen) (map g l) = map g (dedup_from e seen l).
  Proof.
    induction l as [|x l IH]; intros seen; cbn [dedup_from map]; auto. rewrite memb_nat. destruct (memb e x seen); auto.
    cbn [map]. f_equal. apply (IH (x :: seen)).
  Qed.
  Lemma dedup_nat l : dedup e' (map g l) = map g (dedup e l).
  Proof. apply (dedup_from_nat l []). Qed.
  Lemma subset_nat l m : subset e' (map g l) (map g m) = subset e l m.
  Proof. unfold subset. induction l as [|x l IH]; cbn; auto. now rewrite memb_nat, IH. Qed.
  Lemma set_eqb_nat l m : set_eqb e' (map g l) (map g m) = set_eqb e l m.
  Proof. unfold set_eqb. now rewrite !subset_nat. Qed.
  Lemma union_nat l m : union e' (map g l) (map g m) = map g (union e l m).
  Proof. unfold union. now rewrite <- map_app, dedup_nat. Qed.
  Lemma list_eqb_nat l : forall m, list_eqb e' (map g l) (map g m) = list_eqb e l m.
  Proof. induction l as [|x l IH]; intros [|y m]; cbn; auto. now rewrite G, IH. Qed.
  Lemma option_eqb_nat a b : option_eqb e' (option_map g a) (option_map g b) = option_eqb e a b.
  Proof. destruct a, b; cbn; auto. Qed.
  Context {V W : Type} (h : V -> W).
  Let gh (kv : A * V) : B * W := (g (fst kv), h (snd kv)).
  Lemma dict_get_nat k d : dict_get e' (g k) (map gh d) = option_map h (dict_get e k d).
  Proof. induction d as [|[a v] d IH]; cbn; auto. rewrite G. destruct (e k a); auto. Qed.
  Lemma dict_set_nat k v d : dict_set e' (g k) (h v) (map gh d) = map gh (dict_set e k v d).
  Proof. induction d as [|[a w] d IH]; cbn; auto. rewrite G. destruct (e k a); cbn; auto. now rewrite IH. Qed.
  Lemma dict_has_nat k d : dict_has e' (g k) (map gh d) = dict_has e k d.
  Proof. unfold dict_has. rewrite dict_get_nat. now destruct (dict_get e k d). Qed.
  Lemma fold_set_nat l : forall d, fold_left (fun d kv => dict_set e' (fst kv) (snd kv) d) (map gh l) (map gh d)
     = map gh (fold_left (fun d kv => dict_set e (fst kv) (snd kv) d) l d).
  Proof. induction l as [|[k v] l IH]; intros d; cbn [fold_left map]; auto. cbn [fst snd gh]. now rewrite dict_set_nat, IH. Qed.
  Lemma dict_of_list_nat l : dict_of_list e' (map gh l) = map gh (dict_of_list e l).
  Proof. apply (fold_set_nat l []). Qed.
  Lemma dict_eqb_nat ve ve' d1 d2 : (forall a b, ve' (h a) (h b) = ve a b) ->
    dict_eqb e' ve' (map gh d1) (map gh d2) = dict_eqb e ve d1 d2.
  Proof.
    intros E. unfold dict_eqb. rewrite !map_length. f_equal. induction d1 as [|[k v] d1 IH]; cbn [map forallb]; auto.
    rewrite IH. f_equal. cbn [fst snd gh]. rewrite dict_get_nat. destruct (dict_get e k d2); cbn; auto.
  Qed.
End Eq.
Lemma length_option {A B} (f : A -> B) o : match option_map f o with Some _ => true | None => false end = match o with Some _ => true | None => false end.
Proof. now destruct o. Qed.

Section Rename.
  Variable r : string -> string.
  Hypothesis R : renaming r.
  Notation rvar := (ren_var r). Notation rterm := (ren_term r). Notation rform := (ren_form r).

  Lemma req a b : String.eqb (r a) (r b) = String.eqb a b.
  Proof.
    destruct (String.eqb_spec a b) as [->|N]; [apply String.eqb_refl|]. apply String.eqb_neq. intros E. now apply (rn_inj r R) in E.
  Qed.
  (** a word that stays *)
  Lemma req_word a w : In w ("number" :: all_symbols) -> String.eqb (r a) w = String.eqb a w.
  Proof. intros I. rewrite <- (rn_words r R w I) at 1. apply req. Qed.
  Lemma req_word' a w : In w ("number" :: all_symbols) -> String.eqb w (r a) = String.eqb w a.
  Proof. intros I. rewrite <- (rn_words r R w I) at 1. apply req. Qed.
  Lemma memb_words a l : (forall w, In w l -> In w ("number" :: all_symbols)) -> memb String.eqb (r a) l = memb String.eqb a l.
  Proof. unfold memb. induction l as [|w l IH]; intros H; cbn; auto. rewrite req_word, IH; auto; intros; apply H; cbn; auto. Qed.
  Lemma regex a : name_regex (r a) = name_regex a.
  Proof. destruct (name_regex a) eqn:E; [now apply (rn_name r R)|now rewrite (rn_other r R)]. Qed.

  Lemma keyword_nat ig a : (forall w, In w ig -> In w all_symbols) -> is_a_keyword ig (r a) = is_a_keyword ig a.
  Proof. intros H. unfold is_a_keyword. rewrite !memb_words; auto; intros; right; auto. Qed.
  Lemma mk_name_nat a : mk_name (r a) = rmap r (mk_name a).
  Proof. unfold mk_name. rewrite regex. now destruct (name_regex a). Qed.
  Lemma parse_ign_nat ig a : (forall w, In w ig -> In w all_symbols) ->
    (check_not_a_keyword ig (r a) ;; mk_name (r a)) = rmap r (check_not_a_keyword ig a ;; mk_name a).
  Proof. intros H. unfold check_not_a_keyword. rewrite keyword_nat by auto. destruct (is_a_keyword ig a); cbn; auto. apply mk_name_nat. Qed.
  Lemma parse_name_nat a : parse_name (r a) = rmap r (parse_name a).
  Proof. apply parse_ign_nat. intros w []. Qed.
  Lemma parse_type_nat a : parse_type (r a) = rmap r (parse_type a).
  Proof. apply parse_ign_nat. intros w [<-|[]]. vm_compute. auto 30. Qed.
  Lemma parse_function_nat a : parse_function (r a) = rmap r (parse_function a).
  Proof. apply parse_ign_nat. intros w [<-|[]]. vm_compute. auto 60. Qed.
  Lemma r_empty : r "" = "".
  Proof. now apply (rn_other r R). Qed.
  Lemma to_type_nat l : to_type (map r l) = rmap (map r) (to_type l).
  Proof. apply mapR_nat', parse_type_nat. Qed.
  Lemma to_type_value_nat o : to_type_value (option_map r o) = rmap (option_map r) (to_type_value o).
  Proof.
    destruct o as [[|c s]|]; cbn [option_map to_type_value]; auto.
    - now rewrite r_empty.
    - destruct (r (String c s)) as [|c' s'] eqn:E.
      + rewrite <- r_empty in E. now apply (rn_inj r R) in E.
      + rewrite <- E, parse_type_nat. destruct (parse_type (String c s)); cbn; auto.
  Qed.
  Lemma to_types_nat d : to_types (ren_types r d) = rmap (ren_types r) (to_types d).
  Proof.
    unfold to_types, ren_types. set (gh := fun kv : string * option string => (r (fst kv), option_map r (snd kv))).
    erewrite mapR_nat' with (h := gh).
    - apply rmap_bind. intros l _. cbn. f_equal. apply (dict_of_list_nat String.eqb String.eqb r req (option_map r)).
    - intros [k v]. cbn [gh fst snd]. rewrite parse_type_nat. apply rmap_bind. intros k' _. rewrite to_type_value_nat.
      apply rmap_bind. intros v' _. reflexivity.
  Qed.

  (** ** terms *)
  Lemma t_name_nat t : t_name (rterm t) = r (t_name t).
  Proof. now destruct t. Qed.
  Lemma t_tags_nat t : t_tags (rterm t) = map r (t_tags t).
  Proof. now destruct t as [n [g|]|v]. Qed.
  Lemma var_eqb_nat a b : var_eqb (rvar a) (rvar b) = var_eqb a b.
  Proof. unfold var_eqb. cbn [ren_var v_name v_tags]. now rewrite req, (set_eqb_nat String.eqb String.eqb r req). Qed.
  Lemma term_eqb_nat a b : term_eqb (rterm a) (rterm b) = term_eqb a b.
  Proof. destruct a, b; cbn; auto using req, var_eqb_nat. Qed.
  Lemma no_dup_nat l : forall seen, no_dup_from (map r seen) (map r l) = no_dup_from seen l.
  Proof.
    induction l as [|x l IH]; intros seen; cbn [no_dup_from map]; auto. rewrite (memb_nat String.eqb String.eqb r req).
    destruct (memb String.eqb x seen); auto. apply (IH (x :: seen)).
  Qed.
  Lemma check_no_dup_nat c : check_no_duplicates (ren_coll r c) = check_no_duplicates c.
  Proof. destruct c; cbn; auto. apply (no_dup_nat l []). Qed.
  Lemma coll_items_nat c : coll_items (ren_coll r c) = map r (coll_items c).
  Proof. now destruct c. Qed.
  Lemma term_init_nat n c : term_init (r n) (ren_coll r c) = rmap (fun p => (r (fst p), map r (snd p))) (term_init n c).
  Proof.
    unfold term_init. rewrite parse_name_nat. apply rmap_bind. intros n' _. rewrite check_no_dup_nat. apply bind_same. intros [] _.
    rewrite coll_items_nat, (dedup_nat String.eqb String.eqb r req), to_type_nat. apply rmap_bind. intros ts _.
    cbn. now rewrite (dedup_nat String.eqb String.eqb r req).
  Qed.
  Lemma mk_const_nat n g : mk_const (r n) (option_map r g) = rmap rterm (mk_const n g).
  Proof.
    unfold mk_const. replace (match option_map r g with Some g0 => CSet [g0] | None => CNone end)
      with (ren_coll r (match g with Some g0 => CSet [g0] | None => CNone end)) by now destruct g.
    rewrite term_init_nat. apply rmap_bind. intros [a [|x l]] _; reflexivity.
  Qed.
  Lemma mk_var_nat n c : mk_var (r n) (ren_coll r c) = rmap rvar (mk_var n c).
  Proof. unfold mk_var. rewrite term_init_nat. apply rmap_bind. intros [a b] _. reflexivity. Qed.

  (** ** conditions and effects *)
  Lemma consistency_nat ts : forall seen, consistency_from (map (fun kv => (r (fst kv), map r (snd kv))) seen) (map rterm ts) = consistency_from seen ts.
  Proof.
    induction ts as [|t ts IH]; intros seen; cbn [consistency_from map]; auto.
    rewrite t_name_nat, t_tags_nat, (dict_get_nat String.eqb String.eqb r req (map r)).
    destruct (dict_get String.eqb (t_name t) seen) as [tags|]; cbn [option_map].
    - rewrite (set_eqb_nat String.eqb String.eqb r req), IH. reflexivity.
    - rewrite (dict_set_nat String.eqb String.eqb r req (map r)). apply IH.
  Qed.
  Lemma check_consistency_nat ts : check_terms_consistency (map rterm ts) = check_terms_consistency ts.
  Proof. apply (consistency_nat ts []). Qed.
  Lemma mk_pred_nat n ts : mk_pred (r n) (map rterm ts) = rmap rform (mk_pred n ts).
  Proof.
    unfold mk_pred. rewrite parse_name_nat. apply rmap_bind. intros n' _. rewrite check_consistency_nat. now apply bind_same.
  Qed.
  Lemma mk_eq_nat a b : mk_eq (rterm a) (rterm b) = rmap rform (mk_eq a b).
  Proof. unfold mk_eq. change [rterm a; rterm b] with (map rterm [a; b]). rewrite check_consistency_nat. now apply bind_same. Qed.
  Lemma mk_numfun_nat n ts : mk_numfun (r n) (map rterm ts) = rmap rform (mk_numfun n ts).
  Proof. unfold mk_numfun. rewrite parse_function_nat. apply rmap_bind. intros n' _. reflexivity. Qed.
  Lemma form_eqb_nat f : forall g, form_eqb (rform f) (rform g) = form_eqb f g.
  Proof.
    assert (L : forall l, Forall (fun f => forall g, form_eqb (rform f) (rform g) = form_eqb f g) l ->
      forall m, list_eqb form_eqb (map rform l) (map rform m) = list_eqb form_eqb l m).
    { induction 1 as [|x l E F IH]; intros [|y m]; cbn; auto. now rewrite E, IH. }
    induction f using form_ind'; intros [] ; cbn [ren_form form_eqb]; auto.
    all: rewrite ?req, ?term_eqb_nat, ?(list_eqb_nat term_eqb term_eqb rterm term_eqb_nat), ?(set_eqb_nat var_eqb var_eqb rvar var_eqb_nat); auto.
    all: f_equal; auto.
  Qed.
  Lemma forms_eqb_nat l m : list_eqb form_eqb (map rform l) (map rform m) = list_eqb form_eqb l m.
  Proof. apply list_eqb_nat, form_eqb_nat. Qed.
  Lemma ops_if_nat c f : ops_if c (rform f) = option_map (map rform) (ops_if c f).
  Proof. destruct c, f; cbn; auto; [destruct (bop_eqb k k0)|destruct (bfun_eqb k k0)]; auto. Qed.
  Lemma form_size_nat f : form_size (rform f) = form_size f.
  Proof.
    assert (L : forall l, Forall (fun f => form_size (rform f) = form_size f) l ->
      fold_right (fun g n => form_size g + n) 0 (map rform l) = fold_right (fun g n => form_size g + n) 0 l).
    { induction 1 as [|x l E F IH]; cbn; auto. }
    induction f using form_ind'; cbn [ren_form form_size]; auto.
  Qed.
  Lemma forms_size_nat l : forms_size (map rform l) = forms_size l.
  Proof. unfold forms_size. induction l; cbn; auto. now rewrite form_size_nat, IHl. Qed.
  Lemma flatten_nat n c : forall st seen out, flatten_loop n c (map rform st) (map rform seen) (map rform out) = map rform (flatten_loop n c st seen out).
  Proof.
    induction n as [|n IH]; intros st seen out; cbn [flatten_loop]; auto. destruct st as [|x st]; cbn [map]; auto.
    rewrite ops_if_nat. destruct (ops_if c x) as [ops|]; cbn [option_map].
    - rewrite <- map_app. apply IH.
    - rewrite (memb_nat form_eqb form_eqb rform form_eqb_nat). destruct (memb form_eqb x seen); [apply IH|].
      rewrite <- (IH st (x :: seen) (out ++ [x])). now rewrite map_app.
  Qed.
  Lemma simplify_nat c i l : simplify_operands c i (map rform l) = map rform (simplify_operands c i l).
  Proof.
    unfold simplify_operands. replace (if i then dedup form_eqb (map rform l) else map rform l)
      with (map rform (if i then dedup form_eqb l else l)) by (destruct i; auto; symmetry; apply dedup_nat, form_eqb_nat).
    remember (if i then dedup form_eqb l else l) as old. destruct old as [|x [|y m]]; auto.
    rewrite forms_size_nat. exact (flatten_nat (S (forms_size (x :: y :: m))) c (x :: y :: m) [] []).
  Qed.
  Lemma raw_nat c l : raw_node c (map rform l) = rform (raw_node c l).
  Proof. now destruct c. Qed.
  Lemma mk_op_nat c l : mk_op c (map rform l) = rform (mk_op c l).
  Proof.
    unfold mk_op. destruct (metaclass c) as [i|]; [|apply raw_nat]. rewrite simplify_nat.
    destruct (simplify_operands c i l) as [|x [|y m]]; cbn [map]; try (destruct i; auto); apply (raw_nat c []) || apply (raw_nat c [x]) || apply (raw_nat c (x :: y :: m)).
  Qed.
  Lemma mk_bin_nat k l : mk_bin k (map rform l) = rform (mk_bin k l).
  Proof. apply mk_op_nat. Qed.
  Lemma mk_binfun_nat k l : mk_binfun k (map rform l) = rform (mk_binfun k l).
  Proof. apply mk_op_nat. Qed.
  Lemma mk_quant_nat q vs f : mk_quant q (map rvar vs) (rform f) = rform (mk_quant q vs f).
  Proof. unfold mk_quant. cbn. f_equal. apply dedup_nat, var_eqb_nat. Qed.
  Lemma mk_forall_nat vs f : mk_forall (map rvar vs) (rform f) = rform (mk_forall vs f).
  Proof. unfold mk_forall. cbn. f_equal. apply dedup_nat, var_eqb_nat. Qed.
  Lemma is_literal_nat f : is_literal (rform f) = is_literal f.
  Proof. destruct f as [| | | | | |[]| | |]; auto. Qed.

  (** ** instantiate *)
  Definition rmapping (m : mapping) : mapping := map (fun kv => (rterm (fst kv), rterm (snd kv))) m.
  Lemma inst_term_nat m t : inst_term (rmapping m) (rterm t) = rterm (inst_term m t).
  Proof.
    destruct t as [n g|v]; auto. unfold inst_term. cbn [ren_term]. change (TVar (rvar v)) with (rterm (TVar v)).
    unfold rmapping. rewrite (dict_get_nat term_eqb term_eqb rterm term_eqb_nat rterm). now destruct (dict_get term_eqb (TVar v) m).
  Qed.
  Lemma inst_terms_nat m ts : map (inst_term (rmapping m)) (map rterm ts) = map rterm (map (inst_term m) ts).
  Proof. rewrite !map_map. apply map_ext. intros. apply inst_term_nat. Qed.
  Lemma instantiate_nat m f : instantiate (rmapping m) (rform f) = rmap rform (instantiate m f).
  Proof.
    induction f using form_ind'; cbn [ren_form instantiate]; auto.
    - rewrite inst_terms_nat. apply mk_pred_nat.
    - rewrite !inst_term_nat. apply mk_eq_nat.
    - rewrite inst_terms_nat. apply mk_numfun_nat.
    - rewrite (mapR_nat (instantiate m) _ _ rform) by auto. apply rmap_bind. intros l _. cbn. now rewrite mk_binfun_nat.
    - rewrite (mapR_nat (instantiate m) _ _ rform) by auto. apply rmap_bind. intros l _. cbn. now rewrite mk_bin_nat.
    - rewrite IHf. now apply rmap_bind.
    - rewrite IHf. apply rmap_bind. intros g _. cbn. now rewrite mk_quant_nat.
  Qed.

  (** ** actions, derived predicates, metrics *)
  Lemma mk_action_nat n ps p e : mk_action (r n) (map rterm ps) (option_map rform p) (option_map rform e) = rmap (ren_action r) (mk_action n ps p e).
  Proof. unfold mk_action. rewrite parse_name_nat. now apply rmap_bind. Qed.
  Lemma action_eqb_nat a b : action_eqb (ren_action r a) (ren_action r b) = action_eqb a b.
  Proof.
    unfold action_eqb. cbn [ren_action a_name a_params a_pre a_eff].
    now rewrite req, (list_eqb_nat term_eqb term_eqb rterm term_eqb_nat), !(option_eqb_nat form_eqb form_eqb rform form_eqb_nat).
  Qed.
  Lemma derived_eqb_nat a b : derived_eqb (ren_derived r a) (ren_derived r b) = derived_eqb a b.
  Proof.
    unfold derived_eqb. rewrite <- (form_eqb_nat (dp_pred a)), <- (form_eqb_nat (dp_cond a)). reflexivity.
  Qed.
  Lemma metric_eqb_nat a b : metric_eqb (ren_metric r a) (ren_metric r b) = metric_eqb a b.
  Proof. unfold metric_eqb. cbn. now rewrite form_eqb_nat. Qed.
  Lemma inst_opt_nat m o : inst_opt (rmapping m) (option_map rform o) = rmap (option_map rform) (inst_opt m o).
  Proof. destruct o; cbn; auto. rewrite instantiate_nat. now apply rmap_bind. Qed.
  Lemma combine_nat {A B C D} (f : A -> C) (g : B -> D) l : forall m, combine (map f l) (map g m) = map (fun kv => (f (fst kv), g (snd kv))) (combine l m).
  Proof. induction l; intros [|]; cbn; auto. now rewrite IHl. Qed.
  Lemma action_instantiate_nat a ts : action_instantiate (ren_action r a) (map rterm ts) = rmap (ren_action r) (action_instantiate a ts).
  Proof.
    unfold action_instantiate. cbn [ren_action a_name a_params a_pre a_eff]. rewrite !map_length. apply bind_same. intros [] _.
    rewrite (combine_nat rterm rterm), (dict_of_list_nat term_eqb term_eqb rterm term_eqb_nat rterm).
    change (map (fun kv => (rterm (fst kv), rterm (snd kv))) ?x) with (rmapping x).
    rewrite inst_opt_nat. apply rmap_bind. intros p _. rewrite inst_opt_nat. apply rmap_bind. intros e _. apply mk_action_nat.
  Qed.

  (** ** types *)
  Definition rgraph (g : graph) : graph := map (fun kv => (r (fst kv), option_map (map r) (snd kv))) g.
  Definition rstack (st : list (string * list string)) := map (fun p => (r (fst p), map r (snd p))) st.
  Definition rfc (s : fc_state) : fc_state := mkFc (map r (fc_todo s)) (rstack (fc_stack s)) (map r (fc_visited s)).
  Definition rsum (x : fc_state + option (list string)) : fc_state + option (list string) :=
    match x with inl s => inl (rfc s) | inr o => inr (option_map (map r) o) end.
  Lemma fc_step_nat g s : fc_step (rgraph g) (rfc s) = rsum (fc_step g s).
  Proof.
    unfold fc_step. destruct s as [todo st vis]. cbn [rfc fc_todo fc_stack fc_visited]. destruct st as [|[cur path] st]; cbn [rstack map fst snd].
    - destruct todo as [|n ns]; cbn [map]; auto. rewrite (memb_nat String.eqb String.eqb r req). now destruct (memb String.eqb n vis).
    - rewrite (memb_nat String.eqb String.eqb r req). destruct (memb String.eqb cur path); auto. cbn [rsum]. unfold rfc.
      cbn [fc_todo fc_stack fc_visited map]. do 2 f_equal. unfold rgraph.
      rewrite (dict_get_nat String.eqb String.eqb r req (option_map (map r))). unfold rstack.
      destruct (dict_get String.eqb cur g) as [[ns|]|]; cbn [option_map]; auto.
      rewrite map_app. f_equal. rewrite map_rev. f_equal. rewrite !map_map. apply map_ext. intros n. cbn. now rewrite map_app.
  Qed.
  Lemma loop_nat g n : forall s, loop (fc_step (rgraph g)) n (rfc s) = rsum (loop (fc_step g) n s).
  Proof.
    induction n as [|n IH]; intros s; cbn [loop]; [apply fc_step_nat|]. rewrite IH. destruct (loop (fc_step g) n s); cbn [rsum]; auto.
  Qed.
  Lemma fc_nodes_nat g : fc_nodes (rgraph g) = map r (fc_nodes g).
  Proof.
    unfold fc_nodes, rgraph. induction g as [|[k o] g IH]; cbn [flat_map map fst snd]; auto. rewrite IH. destruct o as [ns|]; cbn; now rewrite ?map_app.
  Qed.
  Lemma fc_degree_nat g : fc_degree (rgraph g) = fc_degree g.
  Proof. unfold fc_degree, rgraph. induction g as [|[k o] g IH]; cbn [fold_right map fst snd]; auto. rewrite IH. destruct o; cbn; now rewrite ?map_length. Qed.
  Lemma fc_bound_nat g : fc_bound (rgraph g) = fc_bound g.
  Proof.
    unfold fc_bound. rewrite fc_nodes_nat, (dedup_nat String.eqb String.eqb r req), map_length, fc_degree_nat. unfold rgraph. now rewrite map_length.
  Qed.
  Lemma find_cycle_nat g : find_cycle (rgraph g) = option_map (map r) (find_cycle g).
  Proof.
    unfold find_cycle, find_cycle_run. rewrite fc_bound_nat.
    replace (mkFc (map fst (rgraph g)) [] []) with (rfc (mkFc (map fst g) [] [])).
    - rewrite loop_nat. destruct (loop _ _ _); reflexivity.
    - unfold rfc, rgraph. cbn. f_equal. now rewrite !map_map.
  Qed.
  Lemma types_graph_nat d : types_graph (ren_types r d) = rgraph (types_graph d).
  Proof. unfold types_graph, ren_types, rgraph. rewrite !map_map. apply map_ext. intros [k [p|]]; reflexivity. Qed.
  Lemma supertypes_nat d : flat_map (fun kv => match snd kv with Some p => [p] | None => [] end) (ren_types r d)
    = map r (flat_map (fun kv => match snd kv with Some p => [p] | None => [] end) d).
  Proof. induction d as [|[k [p|]] d IH]; cbn [ren_types flat_map map fst snd option_map app] in *; auto. f_equal. exact IH. Qed.
  Lemma all_types_nat d : all_types (ren_types r d) = map r (all_types d).
  Proof.
    unfold all_types. rewrite supertypes_nat. replace (map fst (ren_types r d)) with (map r (map fst d)) by (unfold ren_types; now rewrite !map_map).
    rewrite <- map_app. apply dedup_nat, req.
  Qed.
  Definition super (d : types_dict) := flat_map (fun kv : string * option string => match snd kv with Some p => [p] | None => [] end) d.
  Lemma check_types_eq d rs : check_types_dictionary d rs =
    if Nat.eqb (length d) 0 then Ok tt else
    if negb (Nat.eqb (length (super d)) 0) && negb (has TYPING rs) then Err PDDLValidationError
    else match dict_get String.eqb "object" d with
         | Some (Some _) => Err PDDLValidationError
         | _ => match find_cycle (types_graph d) with Some _ => Err PDDLValidationError | None => Ok tt end
         end.
  Proof. now destruct d. Qed.
  Lemma object_in : In "object" ("number" :: all_symbols).
  Proof. vm_compute. auto 60. Qed.
  Lemma check_types_nat d rs : check_types_dictionary (ren_types r d) rs = check_types_dictionary d rs.
  Proof.
    rewrite !check_types_eq. unfold super. rewrite supertypes_nat, types_graph_nat, find_cycle_nat, map_length.
    assert (E : dict_get String.eqb "object" (ren_types r d) = option_map (option_map r) (dict_get String.eqb "object" d)).
    { unfold ren_types. rewrite <- (rn_words r R "object" object_in) at 1. apply (dict_get_nat String.eqb String.eqb r req (option_map r)). }
    rewrite E. unfold ren_types. rewrite map_length.
    destruct (Nat.eqb (length d) 0); auto. destruct (negb _ && _); auto.
    destruct (dict_get String.eqb "object" d) as [[x|]|]; cbn [option_map]; auto; now destruct (find_cycle (types_graph d)).
  Qed.
  Lemma mk_types_nat d rs sk : mk_types (option_map (ren_types r) d) rs sk = rmap (ren_types r) (mk_types d rs sk).
  Proof.
    assert (E : forall t, (let* t := to_types (ren_types r t) in (if sk then Ok tt else check_types_dictionary t rs) ;; Ok t)
      = rmap (ren_types r) (let* t := to_types t in (if sk then Ok tt else check_types_dictionary t rs) ;; Ok t)).
    { intros d0. rewrite to_types_nat. apply rmap_bind. intros t _. rewrite check_types_nat. now apply bind_same. }
    destruct d as [d|]; [apply (E d)|apply (E [])].
  Qed.

  (** ** the type checker *)
  Lemma check_term_nat d rs t : check_term (ren_types r d) rs (rterm t) = check_term d rs t.
  Proof. unfold check_term. now rewrite t_tags_nat, map_length, all_types_nat, (subset_nat String.eqb String.eqb r req). Qed.
  Lemma check_terms_nat d rs ts : check_terms (ren_types r d) rs (map rterm ts) = check_terms d rs ts.
  Proof. apply iterR_nat'. intros. apply check_term_nat. Qed.
  Lemma check_vars_nat d rs vs : check_vars (ren_types r d) rs (map rvar vs) = check_vars d rs vs.
  Proof. apply iterR_nat'. intros v. apply (check_term_nat d rs (TVar v)). Qed.
  Lemma check_form_nat d rs f : check_form (ren_types r d) rs (rform f) = check_form d rs f.
  Proof.
    induction f using form_ind'; cbn [ren_form check_form]; auto; rewrite ?check_terms_nat, ?check_term_nat, ?check_vars_nat; auto.
    - now apply iterR_nat.
    - now apply iterR_nat.
    - now rewrite IHf.
    - now rewrite IHf1, IHf2.
    - now rewrite IHf.
  Qed.
  Lemma check_opt_nat d rs o : check_opt (ren_types r d) rs (option_map rform o) = check_opt d rs o.
  Proof. destruct o; cbn; auto. apply check_form_nat. Qed.
  Lemma check_action_nat d rs a : check_action (ren_types r d) rs (ren_action r a) = check_action d rs a.
  Proof. unfold check_action. cbn [ren_action a_params a_pre a_eff]. now rewrite check_terms_nat, !check_opt_nat. Qed.
  Lemma check_has_terms_nat d tss : check_has_terms (ren_types r d) (map (map rterm) tss) = check_has_terms d tss.
  Proof.
    unfold check_has_terms. f_equal. induction tss as [|ts tss IH]; [reflexivity|]. cbn [map forallb]. f_equal; [|exact IH]. clear IH.
    induction ts as [|t ts IH]; [reflexivity|]. cbn [map forallb]. f_equal; [|exact IH].
    now rewrite t_tags_nat, all_types_nat, (subset_nat String.eqb String.eqb r req).
  Qed.
  Lemma atom_eqb_nat a b : atom_eqb (ren_atom r a) (ren_atom r b) = atom_eqb a b.
  Proof. unfold atom_eqb. cbn. now rewrite req, (list_eqb_nat term_eqb term_eqb rterm term_eqb_nat). Qed.
  Lemma const_eqb_nat a b : const_eqb (ren_const r a) (ren_const r b) = const_eqb a b.
  Proof. apply req. Qed.
  Lemma total_cost_in : In "total-cost" ("number" :: all_symbols).
  Proof. vm_compute. auto 60. Qed.
  Definition costs (b : bool) (d : functions_dict) := existsb (fun kv => xorb b (String.eqb (fst (fst kv)) "total-cost")) d.
  Lemma costs_nat b d : costs b (ren_functions r d) = costs b d.
  Proof. unfold costs. induction d as [|[[n ts] v] d IH]; [reflexivity|]. cbn [ren_functions map existsb]. f_equal; [|exact IH]. cbn. now rewrite (req_word n _ total_cost_in). Qed.
  Lemma check_total_cost_eq d rs : check_total_cost d rs =
    if Nat.eqb (length d) 0 then Ok tt else
    if costs false d then
      check (has ACTION_COSTS rs) PDDLValidationError ;;
      if costs true d then check (has NUMERIC_FLUENTS (extend_reqs rs)) PDDLValidationError else Ok tt
    else check (has NUMERIC_FLUENTS (extend_reqs rs)) PDDLValidationError.
  Proof.
    assert (E1 : costs false d = existsb (fun kv => String.eqb (fst (fst kv)) "total-cost") d).
    { unfold costs. induction d as [|x l IH]; cbn; auto. rewrite <- IH. now destruct (String.eqb _ _). }
    assert (E2 : costs true d = existsb (fun kv => negb (String.eqb (fst (fst kv)) "total-cost")) d).
    { unfold costs. induction d as [|x l IH]; cbn; auto. }
    rewrite E1, E2. now destruct d.
  Qed.
  Lemma check_total_cost_nat d rs : check_total_cost (ren_functions r d) rs = check_total_cost d rs.
  Proof. rewrite !check_total_cost_eq, !costs_nat. unfold ren_functions. now rewrite map_length. Qed.

  (** ** domains and problems *)
  Lemma const_term_nat c : const_term (ren_const r c) = rterm (const_term c).
  Proof. now destruct c. Qed.
  Lemma domain_check_nat d : domain_check_consistency (ren_domain r d) = domain_check_consistency d.
  Proof.
    unfold domain_check_consistency. cbn [ren_domain d_types d_reqs d_constants d_predicates d_actions d_derived].
    replace (map const_term (map (ren_const r) (d_constants d))) with (map rterm (map const_term (d_constants d)))
      by (rewrite !map_map; apply map_ext; intros; symmetry; apply const_term_nat).
    rewrite check_terms_nat. apply bind_unit.
    apply bind_eq; [apply (iterR_nat' _ _ (ren_atom r)); intros [n ts]; apply check_terms_nat|].
    apply bind_eq; [exact (iterR_nat' _ _ _ _ (check_action_nat (d_types d) (d_reqs d)))|].
    replace (map a_params (map (ren_action r) (d_actions d))) with (map (map rterm) (map a_params (d_actions d))) by now rewrite !map_map.
    replace (map dp_terms (map (ren_derived r) (d_derived d))) with (map (map rterm) (map dp_terms (d_derived d))) by now rewrite !map_map.
    now rewrite !check_has_terms_nat.
  Qed.
  Lemma mk_domain_nat n rs ty cs ps dps fs acts :
    mk_domain (r n) rs (option_map (ren_types r) ty) (map (ren_const r) cs) (map (ren_atom r) ps) (map (ren_derived r) dps) (ren_functions r fs) (map (ren_action r) acts)
    = rmap (ren_domain r) (mk_domain n rs ty cs ps dps fs acts).
  Proof.
    unfold mk_domain. rewrite parse_name_nat. apply rmap_bind. intros n' _. rewrite mk_types_nat. apply rmap_bind. intros t _.
    rewrite check_total_cost_nat. apply bind_same. intros [] _.
    rewrite (dedup_nat const_eqb const_eqb _ const_eqb_nat), (dedup_nat atom_eqb atom_eqb _ atom_eqb_nat),
      (dedup_nat derived_eqb derived_eqb _ derived_eqb_nat), (dedup_nat action_eqb action_eqb _ action_eqb_nat).
    match goal with |- bind (domain_check_consistency ?x) _ = rmap _ (bind (domain_check_consistency ?y) _) => change x with (ren_domain r y) end.
    rewrite domain_check_nat. now apply bind_same.
  Qed.
  Lemma domain_eqb_nat a b : domain_eqb (ren_domain r a) (ren_domain r b) = domain_eqb a b.
  Proof.
    unfold domain_eqb, types_eqb, functions_eqb. cbn [ren_domain d_name d_reqs d_types d_constants d_predicates d_derived d_functions d_actions].
    rewrite req, (set_eqb_nat const_eqb const_eqb _ const_eqb_nat), (set_eqb_nat atom_eqb atom_eqb _ atom_eqb_nat),
      (set_eqb_nat derived_eqb derived_eqb _ derived_eqb_nat), (set_eqb_nat action_eqb action_eqb _ action_eqb_nat).
    unfold ren_types, ren_functions.
    rewrite (dict_eqb_nat String.eqb String.eqb r req (option_map r) (option_eqb String.eqb)) by (apply option_eqb_nat, req).
    rewrite (dict_eqb_nat atom_eqb atom_eqb (ren_atom r) atom_eqb_nat (option_map r) (option_eqb String.eqb)) by (apply option_eqb_nat, req).
    reflexivity.
  Qed.

  Definition res_pair {A B} (f : A -> B) (x : A * res unit) : B * res unit := (f (fst x), snd x).
    Lemma lower_nat a b : respects_case r a b -> String.eqb (lower (r a)) (lower (r b)) = String.eqb (lower a) (lower b).
    Proof.
      intros RC. destruct (String.eqb_spec (lower a) (lower b)) as [E|N].
      - apply String.eqb_eq. now apply RC.
      - apply String.eqb_neq. intros E. apply N, (proj1 RC), E.
    Qed.
    Lemma problem_check_nat p d : respects_case r (get_domain_name p) (d_name d) -> problem_check (ren_problem r p) (ren_domain r d) = problem_check p d.
    Proof.
      intros RC. unfold problem_check. replace (get_domain_name (ren_problem r p)) with (r (get_domain_name p))
        by (unfold get_domain_name; cbn; now destruct (p_domain p)).
      cbn [ren_domain d_name d_reqs d_types]. rewrite lower_nat by exact RC. apply bind_unit. cbn [ren_problem p_reqs p_objects p_init p_goal]. apply bind_unit.
      change (Some (ren_types r (d_types d))) with (option_map (ren_types r) (Some (d_types d))). rewrite mk_types_nat.
      destruct (mk_types (Some (d_types d)) (d_reqs d) true) as [t|]; cbn [rmap bind]; auto.
      replace (map const_term (map (ren_const r) (p_objects p))) with (map rterm (map const_term (p_objects p)))
        by (rewrite !map_map; apply map_ext; intros; symmetry; apply const_term_nat).
      rewrite check_terms_nat. apply bind_unit. 
      apply bind_eq; [exact (iterR_nat' _ _ _ _ (check_form_nat t (d_reqs d)))|]. apply check_form_nat.
    Qed.
    Lemma problem_consistency_nat p : problem_check_consistency (ren_problem r p) = problem_check_consistency p.
    Proof.
      unfold problem_check_consistency. cbn [ren_problem p_domain]. destruct (p_domain p) as [d|] eqn:E; cbn [option_map]; auto.
      apply problem_check_nat. unfold respects_case, get_domain_name. rewrite E. tauto.
    Qed.
    Lemma mk_problem_nat n d dn rs objs init goal m :
      mk_problem (r n) (option_map (ren_domain r) d) (option_map r dn) rs (map (ren_const r) objs) (map rform init) (option_map rform goal) (option_map (ren_metric r) m)
      = rmap (ren_problem r) (mk_problem n d dn rs objs init goal m).
    Proof.
      unfold mk_problem. rewrite parse_name_nat. apply rmap_bind. intros n' _.
      assert (E : parse_domain_and_name (option_map (ren_domain r) d) (option_map r dn)
        = rmap (fun x => (option_map (ren_domain r) (fst x), r (snd x))) (parse_domain_and_name d dn)).
      { destruct d as [d|], dn as [s|]; cbn [option_map parse_domain_and_name]; auto.
        - cbn [ren_domain d_name]. rewrite req. apply bind_same. intros [] _. rewrite parse_name_nat. now apply rmap_bind.
        - rewrite parse_name_nat. now apply rmap_bind. }
      rewrite E. apply rmap_bind. intros [d' dn'] Ed. cbn [fst snd].
      replace (parse_requirements (option_map (ren_domain r) d) rs) with (parse_requirements d rs) by now destruct d.
      apply bind_same. intros rs' _.
      rewrite (dedup_nat const_eqb const_eqb _ const_eqb_nat), (dedup_nat form_eqb form_eqb _ form_eqb_nat).
      replace (forallb is_literal (map rform (dedup form_eqb init))) with (forallb is_literal (dedup form_eqb init))
        by (generalize (dedup form_eqb init) as l; induction l; cbn; auto; now rewrite is_literal_nat, IHl).
      apply bind_same. intros [] _.
      match goal with |- bind (problem_check_consistency ?x) _ = rmap _ (bind (problem_check_consistency ?y) _) => replace x with (ren_problem r y) end.
      - rewrite problem_consistency_nat. now apply bind_same.
      - unfold ren_problem. cbn. f_equal. destruct goal; auto.
    Qed.
    Lemma set_domain_nat p d : set_domain (ren_problem r p) (ren_domain r d) = res_pair (ren_problem r) (set_domain p d).
    Proof.
      unfold set_domain, res_pair. cbn [fst snd].
      match goal with |- (?x, _) = (ren_problem r ?y, _) => change x with (ren_problem r y) end. now rewrite problem_consistency_nat.
    Qed.
  Lemma problem_eqb_nat a b : problem_eqb (ren_problem r a) (ren_problem r b) = problem_eqb a b.
  Proof.
    unfold problem_eqb. replace (get_domain_name (ren_problem r a)) with (r (get_domain_name a))
        by (unfold get_domain_name; cbn; now destruct (p_domain a)).
    replace (get_domain_name (ren_problem r b)) with (r (get_domain_name b))
        by (unfold get_domain_name; cbn; now destruct (p_domain b)).
    replace (get_requirements (ren_problem r a)) with (get_requirements a)
        by (unfold get_requirements; cbn; now destruct (p_domain a)).
    replace (get_requirements (ren_problem r b)) with (get_requirements b)
        by (unfold get_requirements; cbn; now destruct (p_domain b)).
    cbn [ren_problem p_name p_domain p_objects p_init p_goal p_metric].
    now rewrite !req, (option_eqb_nat domain_eqb domain_eqb _ domain_eqb_nat), (set_eqb_nat const_eqb const_eqb _ const_eqb_nat),
      (set_eqb_nat form_eqb form_eqb _ form_eqb_nat), form_eqb_nat, (option_eqb_nat metric_eqb metric_eqb _ metric_eqb_nat).
  Qed.

  (** ** plans *)
  Lemma schema_nat d : name_to_schema (ren_domain r d) = map (fun kv => (r (fst kv), ren_action r (snd kv))) (name_to_schema d).
  Proof.
    unfold name_to_schema. cbn [ren_domain d_actions]. rewrite <- (dict_of_list_nat String.eqb String.eqb r req (ren_action r)). now rewrite !map_map.
  Qed.
  Lemma plan_instantiate_nat pl d : plan_instantiate (ren_plan r pl) (ren_domain r d) = rmap (map (ren_action r)) (plan_instantiate pl d).
  Proof.
    apply mapR_nat'. intros [n cs]. cbn [fst snd]. rewrite schema_nat, (dict_get_nat String.eqb String.eqb r req (ren_action r)).
    destruct (dict_get String.eqb n (name_to_schema d)) as [a|]; cbn [option_map]; auto.
    replace (map const_term (map (ren_const r) cs)) with (map rterm (map const_term cs))
        by (rewrite !map_map; apply map_ext; intros; symmetry; apply const_term_nat).
    apply action_instantiate_nat.
  Qed.
  Lemma plan_check_nat pl d p : plan_check (ren_plan r pl) (ren_domain r d) (ren_problem r p) = plan_check pl d p.
  Proof.
    apply iterR_nat'. intros [n cs]. unfold plan_check_step. cbn [fst snd].
    replace (map a_name (d_actions (ren_domain r d))) with (map r (map a_name (d_actions d))) by (cbn; now rewrite !map_map).
    rewrite (memb_nat String.eqb String.eqb r req). apply bind_unit.
    rewrite schema_nat, (dict_get_nat String.eqb String.eqb r req (ren_action r)).
    destruct (dict_get String.eqb n (name_to_schema d)) as [a|]; cbn [option_map]; auto.
    cbn [ren_action a_params]. rewrite !map_length. apply bind_unit. f_equal. cbn [ren_problem p_objects ren_domain d_constants].
    rewrite (union_nat const_eqb const_eqb _ const_eqb_nat). induction cs as [|c cs IH]; cbn [map forallb]; auto.
    now rewrite (memb_nat const_eqb const_eqb _ const_eqb_nat), IH.
  Qed.
End Rename.
