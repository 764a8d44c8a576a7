(** C29: equal objects have the same text. *)
From Coq Require Import String List Bool Arith ZArith Lia.
From Verif Require Import Py Names Reqs Logic Built Validation Core Show.
From Verif Require Import Spec Spec_Core Spec_Print Spec_Same.
From Verif Require Import Py_facts Names_facts CoreEq_facts Same_facts Prop_Text.
Import ListNotations.
Open Scope string_scope.
Open Scope list_scope.

(** The sets and dictionaries of the model are lists in iteration order, and == ignores that
    order; so these theorems hold for every hash seed.  [settled] (Spec_Same.v): every quantifier
    binds at most one variable, of at most one type; [same_numbers]: no number is an int on one
    side and a float on the other. *)
Theorem C29_formulas_partial : forall f g, settled f -> settled g ->
  same_numbers (numbers f) (numbers g) -> form_eqb f g = true -> show_form f = show_form g.
Proof. exact show_form_same. Qed.

(** [settled_domain]: besides, declared predicates, functions and derived predicates have
    variables only, and action parameters are variables of at most one type.  The constants have
    the same types, which == does not compare. *)
Theorem C29_domains_partial : forall a b, domain_built a -> domain_built b ->
  settled_domain a -> settled_domain b ->
  NoDupE atom_eqb (map fst (d_functions a)) -> NoDupE atom_eqb (map fst (d_functions b)) ->
  (forall c, In c (d_constants a) <-> In c (d_constants b)) ->
  same_numbers (flat_map numbers (domain_forms a)) (flat_map numbers (domain_forms b)) ->
  domain_eqb a b = true -> show_domain a = show_domain b.
Proof. exact domain_same. Qed.

Theorem C29_problems_partial : forall a b, problem_reach a -> problem_reach b ->
  Forall settled (problem_forms a) -> Forall settled (problem_forms b) ->
  (forall c, In c (p_objects a) <-> In c (p_objects b)) ->
  same_numbers (flat_map numbers (problem_forms a)) (flat_map numbers (problem_forms b)) ->
  problem_eqb a b = true -> show_problem a = show_problem b.
Proof. exact problem_same. Qed.

Theorem C29_plans : forall a b, plan_eqb a b = true -> show_plan a = show_plan b.
Proof. exact plan_same. Qed.

(** Without these conditions the property is false of the code: equal formulas with two
    variables or types met in another order, or with 1 and 1.0; *)
Definition py (ts : list string) : var := mkVar "y" ts.
Definition unequal_texts : list (form * form) :=
  [ (FQuant QForall [vx []; py []] (px []), FQuant QForall [py []; vx []] (px []));
    (FQuant QExists [vx ["t"; "u"]] (px []), FQuant QExists [vx ["u"; "t"]] (px []));
    (FForall [vx []; py []] (px []), FForall [py []; vx []] (px []));
    (FBinFun BEqual [fun_f; FNumVal (NInt 1)], FBinFun BEqual [fun_f; FNumVal (NDec 10 1)]) ].
Theorem C29_refuted : Forall (fun x => built (fst x) /\ built (snd x) /\ form_eqb (fst x) (snd x) = true
    /\ show_form (fst x) <> show_form (snd x)) unequal_texts.
Proof.
  unfold unequal_texts. repeat apply Forall_cons; [..|apply Forall_nil]; cbn [fst snd];
    unfold px; (split; [repeat built_tac|split; [repeat built_tac|split; [reflexivity|vm_compute; discriminate]]]).
Qed.
(** equal domains with constants of different types, or a parameter whose two types are met in
    another order; equal problems with objects of different types. *)
Definition typed_domain (g : string) := mk_domain "d" [TYPING] (Some [("t", None); ("u", None)]) [("c", Some g)] [] [] [] [].
Definition two_types (ts : list string) := mk_domain "d" [TYPING] (Some [("t", None); ("u", None)]) [] [("q", [])] [] []
   [mkAction "a" [TVar (vx ts)] (Some (FPred "q" [])) (Some (FPred "q" []))].
Definition typed_problem (g : string) := mk_problem "p" None (Some "d") None [("c", Some g)] [] (Some (FPred "q" [])) None.
Theorem C29_domain_refuted :
  (exists a b, typed_domain "t" = Ok a /\ typed_domain "u" = Ok b /\ domain_eqb a b = true /\ show_domain a <> show_domain b)
  /\ (exists a b, two_types ["t"; "u"] = Ok a /\ two_types ["u"; "t"] = Ok b /\ domain_eqb a b = true
       /\ show_domain a <> show_domain b)
  /\ (exists a b, typed_problem "t" = Ok a /\ typed_problem "u" = Ok b /\ problem_eqb a b = true
       /\ show_problem a <> show_problem b).
Proof.
  repeat match goal with |- _ /\ _ => split end;
    (eexists; eexists; split; [vm_compute; reflexivity|split; [vm_compute; reflexivity|split; [vm_compute; reflexivity|vm_compute; discriminate]]]).
Qed.

Print Assumptions C29_formulas_partial.
Print Assumptions C29_domains_partial.
Print Assumptions C29_problems_partial.
Print Assumptions C29_plans.
Print Assumptions C29_refuted.
Print Assumptions C29_domain_refuted.

(** ** Examples *)
Example C29_formula_ex : let f ts := FBin OAnd [FPred "p" [TVar (mkVar "x" ts)]; FQuant QForall [mkVar "y" ["t"]] (FPred "q" [TVar (mkVar "y" [])]);
                                    FBinFun BLess [fun_f; FNumVal (NDec 150 2)]] in
  let g ts := FBin OAnd [FPred "p" [TVar (mkVar "x" ts)]; FQuant QForall [mkVar "y" ["t"]] (FPred "q" [TVar (mkVar "y" [])]);
                                    FBinFun BLess [fun_f; FNumVal (NDec 15 1)]] in
  settled (f ["t"; "u"]) /\ settled (g ["u"; "t"]) /\ same_numbers (numbers (f ["t"; "u"])) (numbers (g ["u"; "t"]))
  /\ form_eqb (f ["t"; "u"]) (g ["u"; "t"]) = true
  /\ show_form (g ["u"; "t"]) = "(and (p ?x) (forall (?y - t) (q ?y)) (< (f) 1.5))".
Proof.
  intros f g. repeat match goal with |- _ /\ _ => split end; try exact I; try reflexivity; try (cbn; lia).
  - repeat constructor.
  - repeat constructor.
  - intros x y [<-|[]] [<-|[]] _. reflexivity.
Qed.
Definition dx (b : bool) {A} (l : list A) : list A := if b then l else rev l.
Definition ex_same (b : bool) := mk_domain "d" (dx b [TYPING; ADL; NUMERIC_FLUENTS]) (Some (dx b [("t", None); ("u", Some "t")]))
  (dx b [("c", Some "t"); ("k", None); ("e", Some "u")])
  (dx b [("p", [TVar (mkVar "x" (dx b ["t"; "u"]))]); ("p", []); ("q", [])])
  (dx b [mkDerived "q" [] (FPred "p" []); mkDerived "q" [] (FNot (FPred "p" []))])
  (dx b [(("f", [TVar (mkVar "x" (dx b ["t"; "u"]))]), None); (("g", []), Some "number")])
  (dx b [mkAction "b" [TVar (mkVar "y" ["t"])] (Some (FPred "q" [])) (Some (FPred "p" []));
         mkAction "a" [] (Some (FPred "q" [])) (Some (FQuant QForall [mkVar "y" ["t"]] (FPred "q" [])))]).
Lemma C29_ex_settled b d : ex_same b = Ok d -> settled_domain d /\ NoDupE atom_eqb (map fst (d_functions d))
  /\ flat_map numbers (domain_forms d) = [].
Proof.
  intros E. destruct b; vm_compute in E; injection E as <-; (split; [constructor|split; [|reflexivity]]).
  all: cbn [d_predicates d_functions d_derived d_actions].
  all: try (intros x X; repeat (destruct X as [<-|X]; [repeat (apply Forall_cons || apply Forall_nil);
    eexists; (split; [reflexivity|]); repeat constructor; cbn; intuition discriminate|]); destruct X).
  all: repeat (apply NDE_cons; [reflexivity|]); try apply NDE_nil.
  all: unfold domain_forms, action_forms, opt_forms; cbn; repeat (apply Forall_cons || apply Forall_nil); try exact I.
  all: repeat constructor.
Qed.
Example C29_domain_ex : exists a b, ex_same true = Ok a /\ ex_same false = Ok b /\ a <> b
  /\ domain_eqb a b = true /\ show_domain a = show_domain b
  /\ show_domain a = Ok "(define (domain d)
    (:requirements :adl :numeric-fluents :typing)
    (:types
        t - object
        u - t
    )
    (:constants c - t e - u k)
    (:predicates (p) (p ?x - (either t u))  (q))
    (:functions (g) - number (f ?x - t))
    (:derived (q) (not (p)))
     (:derived (q) (p))
    (:action a
        :parameters ()
        :precondition (q)
        :effect (forall (?y - t) (q))
    )
     (:action b
        :parameters (?y - t)
        :precondition (q)
        :effect (p)
    )
)".
Proof.
  destruct (ex_same true) as [a|] eqn:EA; [|vm_compute in EA; discriminate].
  destruct (ex_same false) as [b|] eqn:EB; [|vm_compute in EB; discriminate].
  destruct (C29_ex_settled _ _ EA) as (SA & NA & XA), (C29_ex_settled _ _ EB) as (SB & NB & XB).
  assert (BA : domain_built a) by (do 8 eexists; exact EA). assert (BB : domain_built b) by (do 8 eexists; exact EB).
  exists a, b. split; auto. split; auto.
  assert (EQ : domain_eqb a b = true) by (vm_compute in EA, EB; injection EA as <-; injection EB as <-; vm_compute; reflexivity).
  split; [vm_compute in EA, EB; injection EA as <-; injection EB as <-; discriminate|]. split; auto.
  split; [|vm_compute in EA; injection EA as <-; vm_compute; reflexivity].
  apply C29_domains_partial; auto.
  - vm_compute in EA, EB; injection EA as <-; injection EB as <-. intros c. cbn. tauto.
  - rewrite XA, XB. intros x y [].
Qed.

Definition ex_same_problem (b : bool) := mk_problem "p" None (Some "d") (Some (dx b [TYPING; ADL]))
  (dx b [("c", Some "t"); ("e", None)])
  (dx b [FPred "q" [TConst "c" (if b then Some "t" else None)]; FBinFun BEqual [fun_f; FNumVal (if b then NDec 50 1 else NDec 5 0)]])
  (Some (FPred "q" [TConst "e" None])) None.
Example C29_problem_ex : exists a b, ex_same_problem true = Ok a /\ ex_same_problem false = Ok b
  /\ problem_reach a /\ problem_reach b /\ Forall settled (problem_forms a) /\ Forall settled (problem_forms b)
  /\ (forall c, In c (p_objects a) <-> In c (p_objects b))
  /\ same_numbers (flat_map numbers (problem_forms a)) (flat_map numbers (problem_forms b))
  /\ problem_eqb a b = true
  /\ show_problem a = "(define (problem p)
    (:domain d)
    (:requirements :adl :typing)
    (:objects c - t e)
    (:init (= (f) 5.0) (q c))
    (:goal (q e))
)".
Proof.
  destruct (ex_same_problem true) as [a|] eqn:EA; [|vm_compute in EA; discriminate].
  destruct (ex_same_problem false) as [b|] eqn:EB; [|vm_compute in EB; discriminate].
  assert (RA : problem_reach a) by (unfold ex_same_problem in EA; eapply PR_new; [|exact EA]; intros x X; discriminate).
  assert (RB : problem_reach b) by (unfold ex_same_problem in EB; eapply PR_new; [|exact EB]; intros x X; discriminate).
  exists a, b. split; auto. split; auto. split; auto. split; auto.
  vm_compute in EA, EB. injection EA as <-. injection EB as <-.
  repeat match goal with |- _ /\ _ => split end.
  - unfold problem_forms. cbn. repeat constructor.
  - unfold problem_forms. cbn. repeat constructor.
  - intros c. cbn. tauto.
  - unfold problem_forms. cbn. intros x y [<-|[]] [<-|[]] _. reflexivity.
  - vm_compute. reflexivity.
  - vm_compute. reflexivity.
Qed.
