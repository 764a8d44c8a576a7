(** C74: what is printed determines the object: objects with the same text are equal. *)
From Coq Require Import String List Bool Arith ZArith Permutation.
From Verif Require Import Py Names Reqs Logic Built Validation Core Lexer Show Parser.
From Verif Require Import Spec_Core Spec_Parse Spec_Print Spec_Numbers Spec_Text Spec_Domain Spec_Problem Spec_Distinct.
From Verif Require Import Py_facts Names_facts Validation_facts Logic_facts CoreEq_facts Order_facts ProblemText_facts FormatDomain_facts Distinct_facts
  Prop_Text Prop_Domain Prop_Problem Prop_Plan.
Import ListNotations.
Open Scope string_scope.
Open Scope list_scope.

(** Two conditions, effects or expressions with names of the language print as the same text
    exactly when they are the same up to what the text does not say: the types of their terms,
    whether a name is a predicate's or a function's, and whether a forall is a condition or an
    effect ([same_reading], Spec_Distinct.v). *)
Theorem C74_formulas : forall f g, well_named f -> well_named g ->
  (show_form f = show_form g <-> same_reading f g).
Proof. exact same_text_iff. Qed.
Print Assumptions C74_formulas.

(** So they are equal when predicates and functions have different names and variable occurrences
    have no types (as in the formulas that are parsed). *)
Theorem C74_equal_formulas_partial : forall funs texts cond f g, well_named f -> well_named g ->
  plain funs texts cond f -> plain funs texts cond g -> show_form f = show_form g -> form_eqb f g = true.
Proof. intros funs texts cond f g W V F G E. eapply reading_equal; eauto. now apply same_text_reading. Qed.
Print Assumptions C74_equal_formulas_partial.

Lemma built_dicts d : domain_built d -> NoDupE atom_eqb (map fst (d_functions d)) -> dicts_ok d.
Proof.
  intros (n & rs & ty & cs & ps & dps & fs & acts & H) N. eapply mk_domain_dicts; eauto.
  now apply mk_domain_inv in H as (_ & _ & _ & _ & _ & _ & _ & _ & <- & _).
Qed.
(** Domains, for the domains of C33: they are equal and their constants have the same types. *)
Theorem C74_domains_partial : forall a b, domain_built a -> domain_built b ->
  expressible_domain a -> expressible_domain b ->
  NoDupE atom_eqb (map fst (d_functions a)) -> NoDupE atom_eqb (map fst (d_functions b)) ->
  show_domain a = show_domain b ->
  domain_eqb a b = true /\ (forall c, In c (d_constants a) <-> In c (d_constants b)).
Proof.
  intros a b A B EA EB NA NB E.
  destruct (C33_domains_partial a A EA NA) as (s & q & S & Q & X & C).
  destruct (C33_domains_partial b B EB NB) as (s' & q' & S' & Q' & X' & C').
  assert (s' = s) as -> by congruence. assert (q' = q) as -> by congruence.
  pose proof (built_dicts a A NA). pose proof (built_dicts b B NB).
  assert (dicts_ok q).
  { destruct (parsed_domain_parts s q Q) as (n & l & _ & P). apply built_dicts; apply P. }
  split.
  - apply (domain_eqb_trans a q b); auto. now apply domain_eqb_sym.
  - intros c. now rewrite <- C, C'.
Qed.
Print Assumptions C74_domains_partial.

(** Problems, for the problems of C32: they have the same objects with the same types, and they are
    equal exactly when their domains are (the text only has the domain's name). *)
Theorem C74_problems_partial : forall a b, problem_reach a -> problem_reach b ->
  expressible_problem a -> expressible_problem b -> show_problem a = show_problem b ->
  problem_eqb a b = option_eqb domain_eqb (p_domain a) (p_domain b)
  /\ (forall c, In c (p_objects a) <-> In c (p_objects b)).
Proof.
  intros a b A B EA EB E.
  destruct (parse_shown_problem a A EA) as (q & Q & R).
  destruct (parse_shown_problem b B EB) as (q' & Q' & R').
  assert (q' = q) as -> by congruence. destruct R, R'.
  assert (T : forall (X : Type) (eq : X -> X -> bool), is_equiv eq -> forall x y z, eq x y = true -> eq x z = true -> eq y z = true).
  { intros X eq H x y z H1 H2. eapply (eqv_trans _ H); [|exact H2]. now rewrite (eqv_sym _ H). }
  pose proof (Permutation_trans (Permutation_sym rb_objects) rb_objects0) as P. split.
  - unfold problem_eqb.
    replace (p_name b) with (p_name a) by congruence. rewrite String.eqb_refl.
    replace (get_domain_name b) with (get_domain_name a) by congruence. rewrite String.eqb_refl.
    rewrite (T _ _ (set_eqb_equiv _ req_eqb_equiv) _ _ _ rb_reqs rb_reqs0).
    rewrite (T _ _ (set_eqb_equiv _ form_eqb_equiv) _ _ _ rb_init rb_init0).
    rewrite (T _ _ form_eqb_equiv _ _ _ rb_goal rb_goal0).
    rewrite (T _ _ (option_eqb_equiv _ metric_eqb_equiv) _ _ _ rb_metric rb_metric0).
    rewrite set_eqb_perm by (auto using const_eqb_equiv).
    now rewrite !andb_true_r.
  - intros c. split; apply Permutation_in; [|apply Permutation_sym]; exact P.
Qed.
Print Assumptions C74_problems_partial.

(** Plans, for the plans of C30. *)
Theorem C74_plans : forall a b : plan,
  (forall n cs, In (n, cs) a -> identifier n /\ forall c, In c cs -> legal_name (fst c)) ->
  (forall n cs, In (n, cs) b -> identifier n /\ forall c, In c cs -> legal_name (fst c)) ->
  show_plan a = show_plan b -> plan_eqb a b = true.
Proof.
  intros a b A B E. destruct (C30_roundtrip a A) as (p & P & X). destruct (C30_roundtrip b B) as (q & Q & Y).
  assert (q = p) as -> by congruence. eapply (eqv_trans _ plan_eqb_equiv); [|exact Y].
  now rewrite (eqv_sym _ plan_eqb_equiv).
Qed.
Print Assumptions C74_plans.

(** False of the code otherwise: the two domains differ in the type of a variable occurrence in a
    precondition, which == compares and the text does not have. *)
Definition occurrence (gs : list string) : res domain :=
  mk_domain "d" [TYPING] (Some [("t", None)]) [] [("p", [TVar (mkVar "x" [])])] [] []
    [mkAction "a" [TVar (mkVar "x" ["t"])] (Some (FPred "p" [TVar (mkVar "x" gs)])) (Some (FPred "p" [TVar (mkVar "x" [])]))].
Theorem C74_refuted : exists a b s, domain_built a /\ domain_built b
  /\ show_domain a = Ok s /\ show_domain b = Ok s /\ domain_eqb a b = false.
Proof.
  destruct (occurrence []) as [a|] eqn:A; [|vm_compute in A; discriminate].
  destruct (occurrence ["t"]) as [b|] eqn:B; [|vm_compute in B; discriminate].
  destruct (show_domain a) as [s|] eqn:S; [|vm_compute in A; injection A as <-; vm_compute in S; discriminate].
  exists a, b, s. split; [now repeat eexists; exact A|]. split; [now repeat eexists; exact B|]. split; auto.
  vm_compute in A, B. injection A as <-. injection B as <-. split; [rewrite <- S|]; vm_compute; reflexivity.
Qed.
Print Assumptions C74_refuted.
(** Two unequal formulas of one text: a predicate and a function of the same name; a number and
    its text. *)
Theorem C74_formulas_refuted : exists f g v w, well_named f /\ well_named g /\ show_form f = show_form g
  /\ form_eqb f g = false /\ well_named (FNumVal v) /\ well_named (FNumVal w)
  /\ show_num v = show_num w /\ num_eqb v w = false.
Proof.
  exists (FPred "p" []), (FNumFun "p" []), (NInt 1), (NStr "1").
  assert (L : legal_name "p") by (apply parse_name_Ok; reflexivity).
  assert (O : dotted "1") by (apply (D_digits _ 1%Z); [discriminate|reflexivity]).
  repeat split; auto; cbn; try apply L; try (intros; now destruct (proj2 L)).
Qed.
Print Assumptions C74_formulas_refuted.

(** ** objects that meet the hypotheses *)
Example C74_formulas_ex :
  let f b := FForall [mkVar "x" ["t"; "u"]]
      (FWhen (FQuant QExists [mkVar "y" []] (FPred "p" [TVar (mkVar "x" (if b : bool then ["t"; "u"] else [])); TConst "c" (if b then Some "t" else None)]))
         (FBinFun BIncrease [FNumFun "total-cost" []; FNumVal (NDec 25 1)])) in
  well_named (f true) /\ well_named (f false) /\ show_form (f true) = show_form (f false)
  /\ show_form (f true) = "(forall (?x - t u) (when (exists (?y) (p ?x c)) (increase (total-cost) 2.5)))"
  /\ plain (fun n => n = "total-cost") false false (f false) /\ form_eqb (f true) (f false) = false.
Proof.
  assert (D : dotted "2.5") by (apply (D_dot "2" "5" 5%Z); [apply (D_digits "2" 2%Z)|..]; discriminate || reflexivity).
  assert (W : forall ts, Forall (fun t => legal_name (t_name t)) ts -> well_named (FForall [mkVar "x" ["t"; "u"]]
      (FWhen (FQuant QExists [mkVar "y" []] (FPred "p" ts))
         (FBinFun BIncrease [FNumFun "total-cost" []; FNumVal (NDec 25 1)])))).
  { intros ts T. cbn [well_named fold_right]. split; [apply Forall_cons; [var_tac|apply Forall_nil]|].
    split; [|split; [split; [legal_tac|apply Forall_nil]|split; [exact D|exact Logic.I]]].
    split; [apply Forall_cons; [var_tac|apply Forall_nil]|]. split; [legal_tac|exact T]. }
  cbn zeta beta iota.
  split; [apply W; repeat apply Forall_cons; try apply Forall_nil; legal_tac|].
  split; [apply W; repeat apply Forall_cons; try apply Forall_nil; legal_tac|].
  split; [reflexivity|]. split; [reflexivity|]. split; [|reflexivity].
  cbn. repeat split; auto; try discriminate; repeat constructor.
Qed.

Example C74_domains_ex : exists a b, 
  mk_domain "d" [TYPING; STRIPS] (Some [("t", None)]) [("k", Some "t"); ("l", None)] [("p", []); ("q", [TVar (mkVar "x" ["t"])])] [] [] [] = Ok a
  /\ mk_domain "d" [STRIPS; TYPING] (Some [("t", None)]) [("l", None); ("k", Some "t")] [("q", [TVar (mkVar "x" ["t"])]); ("p", [])] [] [] [] = Ok b
  /\ a <> b /\ domain_built a /\ domain_built b /\ expressible_domain a /\ expressible_domain b
  /\ NoDupE atom_eqb (map fst (d_functions a)) /\ NoDupE atom_eqb (map fst (d_functions b)) /\ show_domain a = show_domain b.
Proof.
  assert (X : forall rs cs ps d, mk_domain "d" rs (Some [("t", None)]) cs ps [] [] [] = Ok d ->
    incl rs [STRIPS; TYPING] -> In TYPING (dedup req_eqb rs) -> incl cs [("l", None); ("k", Some "t")] ->
    incl ps [("q", [TVar (mkVar "x" ["t"])]); ("p", [])] ->
    domain_built d /\ expressible_domain d /\ NoDupE atom_eqb (map fst (d_functions d))).
  { intros rs cs ps d M R T C P. split; [do 8 eexists; exact M|].
    apply mk_domain_inv in M as (_ & _ & Kr & Kt & _ & Kc & Kp & Kd & Kf & Ka & _).
    assert (Kt' : d_types d = [("t", None)]) by (apply mk_types_Ok in Kt as (-> & _); [reflexivity|repeat constructor; intros []]).
    rewrite Kf. split; [|constructor]. constructor.
    - rewrite Kr. intros H. apply dedup_In, R in H. destruct H as [H|[H|[]]]; discriminate.
    - unfold types_expressible. rewrite Kt', Kr. split; [|split].
      + intros t p [H|[]]. discriminate.
      + intros [H|[]]. discriminate.
      + intros _. now left.
    - intros n g H. rewrite Kc in H. apply dedup_In, C in H. destruct H as [H|[H|[]]]; injection H as <- <-;
        (split; [legal_tac|]); intros t H; inversion H; subst; legal_tac.
    - rewrite Kp. apply Forall_forall. intros p H. apply dedup_In, P in H. destruct H as [<-|[<-|[]]].
      + exists [mkVar "x" ["t"]]. split; [reflexivity|]. split; [legal_tac|].
        split; [vars_tac|]. split; [same_tac|last_tac [mkVar "x" ["t"]]].
      + exists []. split; [reflexivity|]. split; [legal_tac|].
        split; [vars_tac|]. split; [same_tac|last_tac (@nil var)].
    - rewrite Kf. constructor.
    - rewrite Kd. constructor.
    - rewrite Ka. constructor. }
  destruct (mk_domain "d" [TYPING; STRIPS] (Some [("t", None)]) [("k", Some "t"); ("l", None)] [("p", []); ("q", [TVar (mkVar "x" ["t"])])] [] [] []) as [a|] eqn:A;
    [|vm_compute in A; discriminate].
  destruct (mk_domain "d" [STRIPS; TYPING] (Some [("t", None)]) [("l", None); ("k", Some "t")] [("q", [TVar (mkVar "x" ["t"])]); ("p", [])] [] [] []) as [b|] eqn:B;
    [|vm_compute in B; discriminate].
  exists a, b. destruct (X _ _ _ _ A) as (A1 & A2 & A3); [try intros x; cbn; tauto..|].
  destruct (X _ _ _ _ B) as (B1 & B2 & B3); [try intros x; cbn; tauto..|].
  do 2 (split; [reflexivity|]). clear X. vm_compute in A, B. injection A as <-. injection B as <-.
  split; [discriminate|]. do 6 (split; [assumption|]). vm_compute. reflexivity.
Qed.

Definition ex_goal : form := FBin OAnd [FPred "p" [TConst "a" None]; FNot (FPred "q" [])].
Definition ex_prob (objs : list const) (init : list form) : res problem :=
  mk_problem "p1" None (Some "d") (Some [STRIPS]) objs init (Some ex_goal) None.
Example C74_problems_ex : exists a b,
  ex_prob [("a", Some "t"); ("b", None)] [FPred "q" []; FPred "p" [TConst "b" None]] = Ok a
  /\ ex_prob [("b", None); ("a", Some "t")] [FPred "p" [TConst "b" None]; FPred "q" []] = Ok b
  /\ a <> b /\ problem_reach a /\ problem_reach b /\ expressible_problem a /\ expressible_problem b
  /\ show_problem a = show_problem b /\ problem_eqb a b = true.
Proof.
  destruct (ex_prob [("a", Some "t"); ("b", None)] [FPred "q" []; FPred "p" [TConst "b" None]]) as [a|] eqn:A; [|vm_compute in A; discriminate].
  destruct (ex_prob [("b", None); ("a", Some "t")] [FPred "p" [TConst "b" None]; FPred "q" []]) as [b|] eqn:B; [|vm_compute in B; discriminate].
  assert (RA : problem_reach a) by (unfold ex_prob in A; eapply PR_new; [|exact A]; discriminate).
  assert (RB : problem_reach b) by (unfold ex_prob in B; eapply PR_new; [|exact B]; discriminate).
  exists a, b. split; [reflexivity|]. split; [reflexivity|].
  vm_compute in A, B. injection A as <-. injection B as <-.
  split; [discriminate|]. split; [exact RA|]. split; [exact RB|]. clear.
  split; [|split; [|split; vm_compute; reflexivity]]; (constructor; cbn [p_objects p_init p_goal p_metric];
    [vm_compute; intuition discriminate
    |intros n g H; repeat destruct H as [H|H]; try inversion H; subst; (split; [legal_tac|]); intros t T;
        inversion T; subst; legal_tac
    |repeat apply Forall_cons; [..|apply Forall_nil]; (apply I_atom; [legal_tac|repeat apply Forall_cons; try apply Forall_nil; ground_tac])
    |split; [repeat built_tac|apply C_and; repeat apply Forall_cons; [apply C_atom; atom_tac|apply C_not, C_atom; atom_tac|apply Forall_nil]]
    |discriminate]).
Qed.

Example C74_plans_ex : let a := [("move", [("x", Some "t"); ("y", None)])] in let b := [("move", [("x", None); ("y", None)])] in
  (forall n cs, In (n, cs) a -> identifier n /\ forall c, In c cs -> legal_name (fst c))
  /\ (forall n cs, In (n, cs) b -> identifier n /\ forall c, In c cs -> legal_name (fst c))
  /\ show_plan a = show_plan b /\ a <> b.
Proof.
  assert (N : identifier "move") by (apply (parse_name_Ok "move"); reflexivity).
  cbn zeta. split; [|split]; [..|split; [reflexivity|discriminate]]; intros n cs [H|[]]; injection H as <- <-;
    (split; [exact N|]); intros c [<-|[<-|[]]]; legal_tac.
Qed.
