(** Proofs for C89. *)
From Coq Require Import String List Bool.
From Verif Require Import Py Names Reqs Logic Validation Core Lexer TypedList Parser Shared.
From Verif Require Import Py_facts Logic_facts Names_facts Built_facts Domain_facts CoreEq_facts Problem_facts MeaningText_facts Format_facts Listing_facts Spec_Parse Spec_Interrupt Reuse_facts Shared_facts.
Import ListNotations.
Open Scope string_scope.
Open Scope list_scope.

Lemma interrupted_always {X A} J (Q : A -> Prop) k : forall (p : prog X A) st, always J Q p -> J st -> J (fst (interrupted k p st)).
Proof. induction k as [|k IH]; intros [r|f c] st H Hs; auto. destruct (H st Hs). cbn. auto. Qed.
Lemma interrupted_done {X A} k : forall (p : prog X A) st st' r, interrupted k p st = (st', Done r) -> alone p st = (st', r).
Proof. induction k as [|k IH]; intros [r0|f c] st st' r H; cbn in *; try (now injection H as <- <-); try discriminate. now apply IH. Qed.

(** ** domains *)
Ltac idles := intros; unfold action_parameters, requirements, constants_section, predicates_section, bindM, modify, ret, reads in *; cbv beta zeta in *;
  repeat (match goal with |- context [match ?x with Ok _ => _ | Err _ => _ end] => destruct x end; cbn in *); auto.
Definition types_are (P : option types_dict -> Prop) (st : dstate) : Prop := P (s_types st).
Lemma idle_callback {A} P (m : M A) : (forall st, (types_are P) st -> (types_are P) (fst (m st))) -> always (types_are P) (fun _ => True) (callback m).
Proof. intros H st Hs. split; auto. cbn. now destruct (snd (m st)). Qed.
Lemma idle_reads {A} P (g : dstate -> res A) st : (types_are P) st -> (types_are P) (fst (reads g st)).
Proof. auto. Qed.
Lemma idle_bindM {A B} P (m : M A) (k : A -> M B) : (forall st, (types_are P) st -> (types_are P) (fst (m st))) -> (forall a st, (types_are P) st -> (types_are P) (fst (k a st))) -> forall st, (types_are P) st -> (types_are P) (fst (bindM m k st)).
Proof. intros H K st Hs. unfold bindM. specialize (H st Hs). destruct (m st) as [st' [a|e]]; cbn in *; auto. Qed.
Lemma idle_ret {A} P (r : res A) st : (types_are P) st -> (types_are P) (fst (ret r st)).
Proof. auto. Qed.
Lemma idle_modify P f : (forall st, (types_are P) st -> (types_are P) (f st)) -> forall st, (types_are P) st -> (types_are P) (fst (modify f st)).
Proof. auto. Qed.
Lemma idle_opt {A} P (f : list sexp -> M A) o : (forall l st, (types_are P) st -> (types_are P) (fst (f l st))) -> always (types_are P) (fun _ => True) (optP f o).
Proof. intros H. destruct o as [l|]; [|exact I]. eapply always_bind; [apply idle_callback, H|]. intros; exact I. Qed.
Lemma idle_structure P s : always (types_are P) (fun _ => True) (structure_prog s).
Proof.
  destruct s as [|[|k body]]; try exact I. cbn [structure_prog]. destruct (is_kw ":action" k); [|destruct (is_kw ":derived" k); [|exact I]]; eapply (always_bind _ (fun _ => True)); try (intros; exact I).
  - destruct body as [|[[]|] [|k' [|[|ps] b]]]; try exact I. cbn [action_prog]. destruct (is_kw ":parameters" k'); [|exact I].
    eapply always_bind; [apply idle_callback|]. { idles. }
    intros a _. eapply always_bind; [apply idle_callback, idle_reads|]. intros c _. cbn. now destruct (mk_action _ _ _ _).
  - destruct body as [|h [|x [|]]]; try exact I. cbn [derived_prog]. eapply (always_bind _ (fun _ => True)); [cbn; now destruct (atomic_formula_skeleton h)|]. intros a _.
    eapply always_bind; [apply idle_callback, idle_reads|]. intros b _. apply idle_callback, idle_reads.
Qed.
Lemma idle_map P l : always (types_are P) (fun _ => True) (mapP structure_prog l).
Proof. eapply always_impl; [|apply (always_map (types_are P) (fun _ _ => True)); intros x; apply idle_structure]. auto. Qed.
Definition idle := types_are (fun o => o = None).
Definition busy := types_are (fun o => o <> None).
Lemma idle_domain n l0 : fst (section ":types" (snd (section ":requirements" l0))) = None -> always idle (fun _ => True) (domain_prog n l0).
Proof.
  unfold domain_prog. destruct (section ":requirements" l0) as [o1 l1]. cbn [snd]. destruct (section ":types" l1) as [o2 l2]. cbn [fst]. intros ->.
  destruct (section ":constants" l2) as [o3 l3]. destruct (section ":predicates" l3) as [o4 l4]. destruct (section ":functions" l4) as [o5 l5].
  eapply always_bind; [apply idle_opt|]. { idles. }
  intros rs _. eapply (always_bind _ (fun _ => True)); [exact I|]. intros ty _.
  eapply always_bind; [apply idle_opt|]. { idles. }
  intros cs _. eapply always_bind; [apply idle_opt|]. { idles. }
  intros ps _. eapply always_bind; [apply idle_opt|]. { intros l st H. exact H. }
  intros fs _. eapply always_bind; [apply idle_map|]. intros xs _. cbv zeta. eapply always_bind; [apply idle_callback; now intros|]. intros _ _. cbn. now destruct (mk_domain _ _ _ _ _ _ _ _).
Qed.
Lemma idle_parse s : no_types s -> always idle (fun _ => True) (parse_prog s).
Proof.
  unfold no_types, domain_text, parse_prog, name_sx. destruct (read_text s) as [l|]; [|intros; exact I].
  destruct l as [|x l]; try (intros; exact I). destruct x as [|x]; try (intros; exact I).
  destruct x as [|k1 x]; try (intros; exact I). destruct k1 as [k1|]; try (intros; exact I). destruct k1 as [| | |k1| | | |]; try (intros; exact I).
  destruct x as [|x1 secs]; try (intros; exact I). destruct x1 as [|x1]; try (intros; exact I).
  destruct x1 as [|k2 x1]; try (intros; exact I). destruct k2 as [k2|]; try (intros; exact I). destruct k2 as [| | |k2| | | |]; try (intros; exact I).
  destruct x1 as [|n x1]; try (intros; exact I). destruct n as [n|]; try (intros; exact I). destruct n as [| | |n| | | |]; try (intros; exact I).
  destruct x1; try (intros; exact I). destruct l; try (intros; exact I).
  destruct (String.eqb_spec k1 "define") as [->|]; [|intros; exact I]. destruct (String.eqb_spec k2 "domain") as [->|]; [|intros; exact I]. cbn [andb].
  intros H. apply idle_domain. destruct (section ":requirements" secs) as [rs l1] eqn:S1. cbn [snd]. destruct (section ":types" l1) as [[ty|] l2] eqn:S2; [|reflexivity].
  exfalso. apply section_inv in S1, S2. subst. exact (H n rs ty l2 eq_refl).
Qed.
Lemma harmless_idle h : forall st, harmless h st -> idle st -> idle (after_interrupted h st).
Proof.
  induction h as [|[s k] h IH]; intros st H Hs; [exact Hs|]. destruct H as [C H]. apply (IH _ H). destruct C as [N|(st' & d & E)].
  - eapply interrupted_always; [apply idle_parse, N|exact Hs].
  - rewrite E. cbn [fst]. apply interrupted_done in E. rewrite alone_parse in E. now apply success_types in E.
Qed.
(** a parser that has types *)
Lemma stuck n rs ty rest st st' d : s_types st <> None -> ~ domain_rule n (opt_section ":requirements" rs ++ section_sx ":types" ty :: rest) st = (st', Ok d).
Proof.
  intros T H. apply domain_rule_inv in H as (p1 & m1 & t1 & rs' & p2 & m2 & t2 & ty' & p3 & m3 & t3 & cs' & p4 & m4 & t4 & ps' & p5 & m5 & fs' & t6 & xs'
    & A1 & R1 & A2 & R2 & _).
  assert (S1 : section ":requirements" (opt_section ":requirements" rs ++ section_sx ":types" ty :: rest) = (rs, section_sx ":types" ty :: rest)) by (destruct rs; reflexivity).
  rewrite S1 in A1. injection A1 as <- <-. injection A2 as <- <-.
  assert (T1 : s_types t1 <> None).
  { destruct rs as [l|]; cbn [optM] in R1.
    - apply bindM_Ok in R1 as (x & a & R1 & E). apply ret_Ok in E as [-> _]. unfold requirements in R1. apply bindM_Ok in R1 as (y & r & E & R1). apply ret_Ok in E as [-> _]. apply bindM_Ok in R1 as (z & u & E & R1). apply ret_Ok in R1 as [-> _].
      injection E as <- _. exact T.
    - apply ret_Ok in R1 as [-> _]. exact T. }
  cbn [optM] in R2. apply bindM_Ok in R2 as (x & a & R2 & _). unfold types_section in R2. apply bindM_Ok in R2 as (y & b & E & R2). apply ret_Ok in E as [-> _].
  apply bindM_Ok in R2 as (z & c & E & R2). injection E as <- _. cbv zeta in R2. apply bindM_Ok in R2 as (v & e & E & R2). unfold reads in E. destruct (s_types t1); [discriminate|]. now apply T1.
Qed.

(** ** problems *)
Definition sane (d : ostate) : Prop := Forall (fun kv : string * const => fst (snd kv) = fst kv /\ legal_name (fst (snd kv))) d.
Lemma sane_step s : always sane (fun _ => True) (parse_problem_prog s).
Proof.
  assert (O : forall x, always sane (fun _ => True) (object_prog x)).
  { intros x d Hd. split; auto. destruct (dict_get String.eqb x d); [|cbn; now destruct (mk_const x None)]. intros d' Hd'. split; auto. exact I. }
  assert (A : forall s, always sane (fun _ => True) (atom_prog s)).
  { clear s. intros s. destruct s as [|l]; try exact I. destruct l as [|[t|] args]; try exact I. destruct t; try exact I. cbn [atom_prog bindP]. destruct (of_opt (mapO word args)); [|exact I].
    eapply always_bind; [apply (always_map sane (fun _ _ => True)), O|]. intros ts _. cbn. now destruct (pred_some s ts). }
  assert (N : forall s, always sane (fun _ => True) (init_prog s)).
  { clear s. intros s. destruct s as [|l]; try exact I. destruct l as [|[t|] args]; try exact I. destruct t; try exact I; cbn [init_prog].
    - destruct (String.eqb s "not"); auto. destruct args as [|x [|]]; try exact I. eapply always_bind; [apply A|]. intros; exact I.
    - cbn [always]. now destruct (init_el [] (SList (SAtom (TOp s) :: args))). }
  unfold parse_problem_prog. destruct (read_text s) as [l|]; [|exact I].
  destruct l as [|x l]; try exact I. destruct x as [|x]; try exact I.
  destruct x as [|k1 x]; try exact I. destruct k1 as [k1|]; try exact I. destruct k1; try exact I.
  destruct x as [|x1 x]; try exact I. destruct x1 as [|x1]; try exact I.
  destruct x1 as [|k2 x1]; try exact I. destruct k2 as [k2|]; try exact I. destruct k2; try exact I.
  destruct x1 as [|n x1]; try exact I. destruct n as [n|]; try exact I. destruct n as [| | |n| | | |]; try exact I.
  destruct x1; try exact I. destruct x as [|x2 secs]; try exact I. destruct x2 as [|x2]; try exact I.
  destruct x2 as [|k3 x2]; try exact I. destruct x2 as [|dn x2]; try exact I. destruct dn as [dn|]; try exact I. destruct dn as [| | |dn| | | |]; try exact I. destruct x2; try exact I. destruct l; try exact I.
  match goal with |- context [if ?b then _ else _] => destruct b end; [|exact I].
  unfold problem_prog. destruct (section ":requirements" secs) as [o1 l1]. cbn [bindP]. destruct (opt_res require_keys o1) as [rs|e]; [|exact I].
  destruct (section ":objects" l1) as [o2 l2]. eapply (always_bind _ (fun _ => True)).
  { destruct o2 as [l|]; [|exact I]. unfold objects_prog. cbn [bindP]. destruct (objects_section l) as [D|] eqn:E; [|exact I]. apply objects_ok in E as [_ E].
    intros d Hd. split; [eapply Forall_impl; [|exact E]; cbn; tauto|]. intros d' Hd'. now split. }
  intros os _. destruct (section ":init" l2) as [[inits|] l3]; [|exact I]. eapply always_bind; [apply (always_map sane (fun _ _ => True)), N|]. intros init _.
  destruct (section ":goal" l3) as [[[|g [|]]|] l4]; try exact I. cbn [bindP]. destruct (gd problem_ctx g); [|exact I]. destruct (section ":metric" l4) as [o5 l5]. cbn [bindP].
  destruct (opt_res metric_spec o5); [|exact I]. destruct l5; [|exact I]. cbn. now destruct (mk_problem _ _ _ _ _ _ _ _).
Qed.
Lemma sane_after h : forall d, sane d -> sane (after_interrupted_problems h d).
Proof. induction h as [|[s k] h IH]; intros d H; [exact H|]. apply IH. eapply interrupted_always; [apply sane_step|exact H]. Qed.

Definition look (d : ostate) (x : string) : res term := match dict_get String.eqb x d with Some k => Ok (const_term k) | None => mk_const x None end.
Definition tag (d : ostate) (x : string) : option string := match dict_get String.eqb x d with Some k => snd k | None => None end.
Lemma sane_get d x k : sane d -> dict_get String.eqb x d = Some k -> fst k = x /\ legal_name x.
Proof.
  intros F. induction F as [|[y c] d E F IH]; cbn; [discriminate|]. destruct (String.eqb x y) eqn:Q; auto. intros H. injection H as <-. apply String.eqb_eq in Q. cbn in E. destruct E as [E1 E2]. rewrite Q, <- E1. auto.
Qed.
Lemma look_at d x : sane d -> look d x = let* _ := mk_const x None in Ok (TConst x (tag d x)).
Proof.
  intros S. unfold look, tag. destruct (dict_get String.eqb x d) as [k|] eqn:E.
  - apply sane_get in E as [<- L]; auto. assert (M : mk_const (fst k) None = Ok (TConst (fst k) None)) by (apply mk_const_Ok; auto). rewrite M. reflexivity.
  - destruct (mk_const x None) as [t|] eqn:M; [|reflexivity]. apply mk_const_Ok in M as [-> _]. reflexivity.
Qed.
Lemma looks d ns : sane d -> mapR (look d) ns = let* _ := mapR (fun x => mk_const x None) ns in Ok (map (fun x => TConst x (tag d x)) ns).
Proof.
  intros S. induction ns as [|x ns IH]; [reflexivity|]. cbn [mapR]. rewrite (look_at d x S), IH. destruct (mk_const x None); [|reflexivity]. cbn [bind]. destruct (mapR (fun x0 => mk_const x0 None) ns); reflexivity.
Qed.
Lemma pred_at n d ns : mk_pred n (map (fun x => TConst x (tag d x)) ns) = let* n' := parse_name n in Ok (FPred n' (map (fun x => TConst x (tag d x)) ns)).
Proof.
  unfold mk_pred. destruct (parse_name n); [|reflexivity]. cbn. assert (C : check_terms_consistency (map (fun x => TConst x (tag d x)) ns) = Ok tt); [|now rewrite C].
  apply check_terms_consistency_Ok. intros t u Ht Hu. apply in_map_iff in Ht as (x & <- & _). apply in_map_iff in Hu as (y & <- & _). cbn. intros <-. tauto.
Qed.
Definition agree {A} (R : A -> A -> Prop) (r r0 : res A) : Prop := match r, r0 with Ok a, Ok b => R a b | Err e, Err e' => e = e' | _, _ => False end.
Definition fact (f g : form) : Prop := form_eqb f g = true /\ is_literal f = is_literal g.
Lemma atom_agree d s : sane d -> agree (fun f g => form_eqb f g = true /\ is_atomic f = true /\ is_atomic g = true) (atomic_formula_name d s) (atomic_formula_name [] s).
Proof.
  intros S. destruct s as [|l]; try reflexivity. destruct l as [|[t|] args]; try reflexivity. destruct t; try reflexivity. cbn [atomic_formula_name].
  destruct (of_opt (mapO word args)) as [ns|]; [|reflexivity]. cbn [bind]. fold (look d) (look []).
  change (fun x => match dict_get String.eqb x d with Some k => Ok (const_term k) | None => mk_const x None end) with (look d).
  assert (S0 : sane []) by constructor. rewrite (looks d ns S), (looks [] ns S0).
  destruct (mapR (fun x => mk_const x None) ns) as [ts|]; [|reflexivity]. cbn [bind]. rewrite !pred_at. destruct (parse_name s); [|reflexivity]. cbn. rewrite String.eqb_refl. repeat split.
  cbn. clear. induction ns as [|x ns IH]; [reflexivity|]. cbn. now rewrite String.eqb_refl.
Qed.
Lemma init_agree d s : sane d -> agree fact (init_el d s) (init_el [] s).
Proof.
  intros S. assert (Rf : forall r, agree fact r r) by (intros [f|e]; cbn; [split; [apply form_eqb_refl|reflexivity]|reflexivity]).
  destruct s as [|l]; try reflexivity. destruct l as [|[t|] args]; try reflexivity. destruct t; try reflexivity.
  - unfold init_el. destruct (String.eqb s "not").
    + destruct args as [|x [|]]; try reflexivity. pose proof (atom_agree d x S) as A. destruct (atomic_formula_name d x), (atomic_formula_name [] x); cbn in *; try contradiction; auto.
      destruct A as (E & A1 & A2). split; [exact E|]. unfold is_literal. cbn. now rewrite A1, A2.
    + pose proof (atom_agree d (SList (SAtom (TWord s) :: args)) S) as A. destruct (atomic_formula_name d _), (atomic_formula_name [] _); cbn [agree] in *; try contradiction; auto.
      destruct A as (E & A1 & A2). split; [exact E|]. unfold is_literal. now rewrite A1, A2.
  - apply Rf.
Qed.
Lemma inits_agree d l : sane d -> agree (Forall2 fact) (mapR (init_el d) l) (mapR (init_el []) l).
Proof.
  intros S. induction l as [|s l IH]; [constructor|]. cbn [mapR]. pose proof (init_agree d s S) as A. destruct (init_el d s), (init_el [] s); cbn in A; try contradiction; [|exact A]. cbn [bind].
  destruct (mapR (init_el d) l), (mapR (init_el []) l); cbn in *; try contradiction; auto.
Qed.

Lemma fact_memb l l0 f : Forall2 fact l l0 -> memb form_eqb f l = memb form_eqb f l0.
Proof.
  intros F. induction F as [|a b l l0 [E _] F IH]; [reflexivity|]. unfold memb in *. cbn [existsb]. rewrite IH. f_equal. destruct (form_eqb f a) eqn:A, (form_eqb f b) eqn:B; auto; exfalso.
  - rewrite (form_eqb_trans _ _ _ A E) in B. discriminate.
  - rewrite form_eqb_sym in E. rewrite (form_eqb_trans _ _ _ B E) in A. discriminate.
Qed.
Lemma literals l l0 : (forall f, memb form_eqb f l = memb form_eqb f l0) -> forallb is_literal l0 = true -> forallb is_literal l = true.
Proof.
  intros H L. apply forallb_forall. intros f Hf. rewrite forallb_forall in L. assert (M : memb form_eqb f l = true) by (apply existsb_exists; exists f; split; [exact Hf|apply form_eqb_refl]).
  rewrite H in M. apply existsb_exists in M as (g & Hg & E). rewrite (literal_eqb _ _ E). auto.
Qed.
Lemma mk_agree n dn rs os init init0 goal m : Forall2 fact init init0 ->
  agree (fun p p0 => problem_eqb p p0 = true) (mk_problem n None (Some dn) rs os init (Some goal) m) (mk_problem n None (Some dn) rs os init0 (Some goal) m).
Proof.
  intros F. assert (D : forall f, memb form_eqb f (dedup form_eqb init) = memb form_eqb f (dedup form_eqb init0)) by (intros f; rewrite !(memb_dedup _ form_eqb_equiv); now apply fact_memb).
  unfold mk_problem. destruct (parse_name n) as [n'|]; [|reflexivity]. cbn [bind]. destruct (parse_domain_and_name None (Some dn)) as [[dd dn']|] eqn:P; [|reflexivity]. cbn [bind].
  assert (dd = None) as -> by (cbn in P; destruct (parse_name dn); cbn in P; [now injection P as <-|discriminate]).
  destruct (parse_requirements None rs) as [rs'|]; [|reflexivity]. cbn [bind]. cbn [problem_check_consistency p_domain fst snd bind].
  assert (L : forallb is_literal (dedup form_eqb init) = forallb is_literal (dedup form_eqb init0)).
  { destruct (forallb is_literal (dedup form_eqb init)) eqn:A, (forallb is_literal (dedup form_eqb init0)) eqn:B; auto; exfalso.
    - rewrite (literals (dedup form_eqb init0) (dedup form_eqb init)) in B; [discriminate|intros; now rewrite D|exact A].
    - rewrite (literals _ _ D B) in A. discriminate. }
  rewrite L. destruct (forallb is_literal (dedup form_eqb init0)); [|reflexivity]. cbn [check bind]. cbn [agree].
  pose (p := mkProblem n' None dn' rs' (dedup const_eqb os) (dedup form_eqb init0) goal m).
  pose proof (problem_eqb_refl p I) as R. unfold problem_eqb in *. cbn in R |- *. rewrite !andb_true_iff in *. repeat match goal with H : _ /\ _ |- _ => destruct H end. repeat split; auto.
  apply set_eqb_spec; [apply form_eqb_equiv|exact D].
Qed.
Lemma rule_agree d n dn l0 : sane d -> agree (fun p p0 => problem_eqb p p0 = true) (problem_rule d n dn l0) (problem_rule [] n dn l0).
Proof.
  intros S. unfold problem_rule. destruct (section ":requirements" l0) as [o1 l1]. destruct (opt_res require_keys o1) as [rs|]; [|reflexivity]. cbn [bind].
  destruct (section ":objects" l1) as [o2 l2]. destruct (opt_res objects_section o2) as [os|] eqn:O; [|reflexivity]. cbn [bind].
  destruct (section ":init" l2) as [[inits|] l3]; [|reflexivity].
  assert (A : agree (Forall2 fact) (mapR (init_el match os with Some d => d | None => d end) inits) (mapR (init_el match os with Some d => d | None => [] end) inits)).
  { destruct os as [D|]; [|now apply inits_agree]. destruct (mapR (init_el D) inits) as [i|]; [|reflexivity]. cbn. induction i; constructor; auto. split; [apply form_eqb_refl|reflexivity]. }
  destruct (mapR (init_el match os with Some d => d | None => d end) inits) as [i|], (mapR (init_el match os with Some d => d | None => [] end) inits) as [i0|]; cbn in A; try contradiction; [|exact A]. cbn [bind].
  destruct (section ":goal" l3) as [[[|g [|]]|] l4]; try reflexivity. destruct (gd problem_ctx g); [|reflexivity]. cbn [bind]. destruct (section ":metric" l4) as [o5 l5].
  destruct (opt_res metric_spec o5); [|reflexivity]. cbn [bind]. destruct l5; [|reflexivity]. now apply mk_agree.
Qed.
Lemma parse_agree d s : sane d -> agree (fun p p0 => problem_eqb p p0 = true) (parse_problem_from d s) (parse_problem s).
Proof.
  intros S. unfold parse_problem, parse_problem_from, parse_problem_sexp. destruct (read_text s) as [l|]; [|reflexivity].
  destruct l as [|x l]; try reflexivity. destruct x as [|x]; try reflexivity.
  destruct x as [|k1 x]; try reflexivity. destruct k1 as [k1|]; try reflexivity. destruct k1; try reflexivity.
  destruct x as [|x1 x]; try reflexivity. destruct x1 as [|x1]; try reflexivity.
  destruct x1 as [|k2 x1]; try reflexivity. destruct k2 as [k2|]; try reflexivity. destruct k2; try reflexivity.
  destruct x1 as [|n x1]; try reflexivity. destruct n as [n|]; try reflexivity. destruct n; try reflexivity.
  destruct x1; try reflexivity. destruct x as [|x2 secs]; try reflexivity. destruct x2 as [|x2]; try reflexivity.
  destruct x2 as [|k3 x2]; try reflexivity. destruct x2 as [|dn x2]; try reflexivity. destruct dn as [dn|]; try reflexivity. destruct dn; try reflexivity. destruct x2; try reflexivity. destruct l; try reflexivity.
  match goal with |- context [if ?b then _ else _] => destruct b end; [now apply rule_agree|reflexivity].
Qed.

(** ** exactly which interruptions leave types behind *)
Fixpoint ends {A} (p : prog dstate A) : Prop :=
  match p with
  | Done _ => True
  | Step f k => forall st, busy st -> (busy (f st) /\ ends (k st)) \/ exists r, k st = Done r
  end.
Lemma ends_bind {A B} (p : prog dstate A) (k : A -> prog dstate B) : always busy (fun _ => True) p -> (forall a, ends (k a)) -> ends (bindP p k).
Proof. intros H K. induction p as [[a|e]|f k' IH]; cbn in *; auto. intros st Hs. destruct (H st Hs). left. auto. Qed.
Lemma ends_interrupted {A} k : forall (p : prog dstate A) st, ends p -> busy st -> busy (fst (interrupted k p st)) \/ exists r, snd (interrupted k p st) = Done r.
Proof.
  induction k as [|k IH]; intros [r|f c] st H Hs; cbn; eauto. destruct (H st Hs) as [[Hf Hk]|[r Hr]]; auto. right. exists r. rewrite Hr. now destruct k.
Qed.
Lemma ends_domain l2 n rs ty : ends (
  let '(o3, l3) := section ":constants" l2 in
  bindP (optP constants_section o3) (fun cs =>
  let '(o4, l4) := section ":predicates" l3 in
  bindP (optP predicates_section o4) (fun ps =>
  let '(o5, l5) := section ":functions" l4 in
  bindP (optP (fun l => ret (functions_section l)) o5) (fun fs =>
  bindP (mapP structure_prog l5) (fun xs =>
  let acts := flat_map (fun x => match x with inl a => [a] | inr _ => [] end) xs in
  let dps := flat_map (fun x => match x with inl _ => [] | inr d => [d] end) xs in
  bindP (callback (modify (set_types None))) (fun _ =>
  Done (mk_domain n (opt_list rs) ty (opt_list cs) (opt_list ps) dps (opt_list fs) acts))))))).
Proof.
  destruct (section ":constants" l2) as [o3 l3]. apply ends_bind; [apply idle_opt; idles|]. intros cs.
  destruct (section ":predicates" l3) as [o4 l4]. apply ends_bind; [apply idle_opt; idles|]. intros ps.
  destruct (section ":functions" l4) as [o5 l5]. apply ends_bind; [apply idle_opt; idles|]. intros fs.
  apply ends_bind; [apply idle_map|]. intros xs. cbv zeta. cbn. intros st _. right. eauto.
Qed.
Lemma domain_points n rs ty rest st st' d : s_types st = None -> domain_rule n (opt_section ":requirements" rs ++ section_sx ":types" ty :: rest) st = (st', Ok d) ->
  let p := domain_prog n (opt_section ":requirements" rs ++ section_sx ":types" ty :: rest) in
  let b := match rs with Some _ => 1 | None => 0 end in
  forall k, (k <= b -> s_types (fst (interrupted k p st)) = None) /\ (b < k -> busy (fst (interrupted k p st)) \/ exists r, snd (interrupted k p st) = Done r).
Proof.
  intros T H. cbv zeta. rewrite <- alone_domain in H.
  assert (S1 : section ":requirements" (opt_section ":requirements" rs ++ section_sx ":types" ty :: rest) = (rs, section_sx ":types" ty :: rest)) by (destruct rs; reflexivity).
  unfold domain_prog in *. rewrite S1 in *. change (section ":types" (section_sx ":types" ty :: rest)) with (Some ty, rest) in *. cbv iota beta in *.
  assert (B : forall rs1 st1, alone (bindP (optP types_section (Some ty)) (fun ty =>
      let '(o3, l3) := section ":constants" rest in
      bindP (optP constants_section o3) (fun cs =>
      let '(o4, l4) := section ":predicates" l3 in
      bindP (optP predicates_section o4) (fun ps =>
      let '(o5, l5) := section ":functions" l4 in
      bindP (optP (fun l => ret (functions_section l)) o5) (fun fs =>
      bindP (mapP structure_prog l5) (fun xs =>
      let acts := flat_map (fun x => match x with inl a => [a] | inr _ => [] end) xs in
      let dps := flat_map (fun x => match x with inl _ => [] | inr d => [d] end) xs in
      bindP (callback (modify (set_types None))) (fun _ =>
      Done (mk_domain n (opt_list rs1) ty (opt_list cs) (opt_list ps) dps (opt_list fs) acts)))))))) st1 = (st', Ok d) ->
    forall k, busy (fst (interrupted (S k) (bindP (optP types_section (Some ty)) (fun ty =>
      let '(o3, l3) := section ":constants" rest in
      bindP (optP constants_section o3) (fun cs =>
      let '(o4, l4) := section ":predicates" l3 in
      bindP (optP predicates_section o4) (fun ps =>
      let '(o5, l5) := section ":functions" l4 in
      bindP (optP (fun l => ret (functions_section l)) o5) (fun fs =>
      bindP (mapP structure_prog l5) (fun xs =>
      let acts := flat_map (fun x => match x with inl a => [a] | inr _ => [] end) xs in
      let dps := flat_map (fun x => match x with inl _ => [] | inr d => [d] end) xs in
      bindP (callback (modify (set_types None))) (fun _ =>
      Done (mk_domain n (opt_list rs1) ty (opt_list cs) (opt_list ps) dps (opt_list fs) acts)))))))) st1)) \/ exists r, snd (interrupted (S k) (bindP (optP types_section (Some ty)) (fun ty =>
      let '(o3, l3) := section ":constants" rest in
      bindP (optP constants_section o3) (fun cs =>
      let '(o4, l4) := section ":predicates" l3 in
      bindP (optP predicates_section o4) (fun ps =>
      let '(o5, l5) := section ":functions" l4 in
      bindP (optP (fun l => ret (functions_section l)) o5) (fun fs =>
      bindP (mapP structure_prog l5) (fun xs =>
      let acts := flat_map (fun x => match x with inl a => [a] | inr _ => [] end) xs in
      let dps := flat_map (fun x => match x with inl _ => [] | inr d => [d] end) xs in
      bindP (callback (modify (set_types None))) (fun _ =>
      Done (mk_domain n (opt_list rs1) ty (opt_list cs) (opt_list ps) dps (opt_list fs) acts)))))))) st1) = Done r).
  { intros rs1 st1 E k. cbn [optP bindP callback alone interrupted] in *. destruct (types_section ty st1) as [s2 [t|e]] eqn:X; cbn [fst snd bindP] in *; [|discriminate].
    apply ends_interrupted; [apply ends_domain|]. unfold types_section in X. apply bindM_Ok in X as (x1 & r & R & X). apply bindM_Ok in X as (x2 & [] & _ & X). cbv zeta in X.
    apply bindM_Ok in X as (x3 & [] & _ & X). apply bindM_Ok in X as (x4 & [] & M & X). apply ret_Ok in X as [-> _]. injection M as <-. unfold busy, types_are. cbn. discriminate. }
  intros k. destruct rs as [l|]; cbn [optP] in *.
  - cbn [bindP callback] in *. split.
    + intros L. destruct k as [|[|k]]; [exact T| |exfalso; apply le_S_n in L; inversion L]. cbn [interrupted fst]. unfold requirements, bindM, modify, ret. destruct (require_keys l); exact T.
    + intros L. destruct k as [|k]; [inversion L|]. destruct k as [|k]; [exfalso; apply le_S_n in L; inversion L|].
      cbn [alone interrupted] in *. destruct (snd (requirements l st)) as [q|e]; cbn [bindP] in *; [|discriminate]. exact (B (Some q) _ H k).
  - cbn [bindP] in *. split; [intros L; destruct k; [exact T|inversion L]|]. intros L. destruct k as [|k]; [inversion L|]. exact (B None _ H k).
Qed.
