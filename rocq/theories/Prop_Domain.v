(** C33: printed domains. *)
From Coq Require Import String List Bool Arith ZArith Lia.
From Verif Require Import Py Names Reqs Logic Built Validation Core Lexer Show Parser.
From Verif Require Import Spec Spec_Core Spec_Parse Spec_Print Spec_Text Spec_Domain.
From Verif Require Import Py_facts Names_facts CoreEq_facts DomainRead_facts Prop_Text.
Import ListNotations.
Open Scope string_scope.
Open Scope list_scope.

(** A domain that PDDL text can express is printed, and the text is read back to an equal domain;
    the constants keep their types, which == does not compare.  [expressible_domain]
    (Spec_Domain.v) asks for: no :object-fluents; types only with :typing, with all supertypes
    declared and without "object"; predicates, functions, action parameters and quantifiers that
    list their untyped variables last; one type per function variable, parameter and quantified
    variable; preconditions and effects in the sense of C31; derived predicates that are declared
    and whose variables have the types the head or a quantifier gives them.  The function
    dictionary has no repeated keys. *)
Theorem C33_domains_partial : forall d, domain_built d -> expressible_domain d ->
  NoDupE atom_eqb (map fst (d_functions d)) ->
  exists s q, show_domain d = Ok s /\ parse_domain_fresh s = Ok q /\ domain_eqb q d = true
    /\ (forall c, In c (d_constants q) <-> In c (d_constants d)).
Proof. exact domain_read_back. Qed.
Print Assumptions C33_domains_partial.

(** Without these conditions the property is false of the code: each of these domains is accepted
    and printed, but its text is rejected or read to another domain. *)
Inductive outcome := Rejected (e : exn) | Equal | Different.
Definition roundtrip (d : domain) : res outcome :=
  let* s := show_domain d in
  Ok (match parse_domain_fresh s with
      | Ok q => if domain_eqb q d then Equal else Different
      | Err e => Rejected e
      end).
Definition ex_with (rs : list req) (ty : types_dict) (ps : list atom) (fs : functions_dict) (acts : list action) :=
  mk_domain "d" rs (Some ty) [] ps [] fs acts.
Definition ex_act (ps : list term) (pre : form) : action := mkAction "a" ps (Some pre) (Some (FPred "q" [])).
Definition two : types_dict := [("t", None); ("u", None)].
Definition unstable : list (res domain * outcome) :=
  [ (* a parameter of two types *)
    (ex_with [TYPING] two [("q", [])] [] [ex_act [TVar (mkVar "x" ["t"; "u"])] (FPred "q" [])], Rejected LarkSyntaxError);
    (* an untyped variable before a typed one *)
    (ex_with [TYPING] two [("q", [TVar (mkVar "x" []); TVar (mkVar "y" ["t"])])] [] [], Different);
    (* a supertype that is not declared *)
    (ex_with [TYPING] [("t", Some "u")] [] [] [], Different);
    (* types without :typing *)
    (ex_with [] two [] [] [], Rejected (PDDLMissingRequirementError TYPING));
    (* the type object, alone and with another one *)
    (ex_with [TYPING] [("object", None)] [] [] [], Rejected LarkSyntaxError);
    (ex_with [TYPING] [("object", None); ("t", None)] [] [] [], Different);
    (* :object-fluents *)
    (ex_with [OBJECT_FLUENTS] [] [] [] [], Rejected LarkSyntaxError);
    (* a difference *)
    (ex_with [NUMERIC_FLUENTS] [] [("q", [])] [(("f", []), None)]
       [ex_act [] (FBinFun BLess [FNumFun "f" []; FBinFun BMinus [FNumFun "f" []; FNumVal (NInt 1)]])],
     Rejected LarkSyntaxError);
    (* a function whose value is not a number *)
    (ex_with [NUMERIC_FLUENTS] [] [] [(("f", []), Some "t")] [], Rejected LarkSyntaxError);
    (* a disjunction without :disjunctive-preconditions *)
    (ex_with [] [] [("q", [])] [] [ex_act [] (FBin OOr [FPred "q" []; FNot (FPred "q" [])])],
     Rejected (PDDLMissingRequirementError DIS_PRECONDITION)) ].
Theorem C33_refuted : Forall (fun x => exists d, fst x = Ok d /\ domain_built d
    /\ NoDupE atom_eqb (map fst (d_functions d)) /\ roundtrip d = Ok (snd x)) unstable.
Proof.
  assert (X : forall rs ty ps fs acts o d, ex_with rs ty ps fs acts = Ok d -> roundtrip d = Ok o ->
     dedup atom_eqb (map fst fs) = map fst fs ->
     exists d, fst (ex_with rs ty ps fs acts, o) = Ok d /\ domain_built d
       /\ NoDupE atom_eqb (map fst (d_functions d)) /\ roundtrip d = Ok (snd (ex_with rs ty ps fs acts, o))).
  { intros rs ty ps fs acts o d E R N. exists d. split; auto. split; [do 8 eexists; exact E|]. split; auto.
    apply mk_domain_inv in E as (_ & _ & _ & _ & _ & _ & _ & _ & -> & _). rewrite <- N. apply dedup_NoDupE, atom_eqb_equiv. }
  unfold unstable. repeat apply Forall_cons; try apply Forall_nil;
    (eapply X; [vm_compute; reflexivity|vm_compute; reflexivity|vm_compute; reflexivity]).
Qed.
Print Assumptions C33_refuted.

(** a domain that meets the hypotheses *)
Definition bl := mkVar "b" ["block"].
Definition ub := mkVar "u" ["block"].
Definition tb := Some "block".
Definition ex_pre : form :=
  FBin OAnd [FPred "clear" [TVar bl]; FNot (FPred "on" [TVar bl; TConst "table" tb]);
             FBinFun BGreaterEq [FNumFun "weight" [TVar bl]; FNumVal (NDec 15 1)]].
Definition ex_eff : form :=
  FBin OAnd [FPred "on" [TVar bl; TConst "table" tb];
             FForall [mkVar "x" ["block"]]
               (FWhen (FPred "on" [TVar bl; TVar (mkVar "x" [])]) (FNot (FPred "on" [TVar bl; TVar (mkVar "x" [])])));
             FBinFun BDecrease [FNumFun "weight" [TVar bl]; FNumVal (NInt 1)]].
Definition ex_clear : derived :=
  mkDerived "clear" [TVar bl] (FNot (FQuant QExists [ub] (FPred "on" [TVar ub; TVar bl]))).
Definition ex_domain : res domain :=
  mk_domain "blocks" [TYPING; ADL; NUMERIC_FLUENTS; DERIVED_PREDICATES] (Some [("small", Some "block"); ("block", None)])
    [("table", tb); ("k", None)]
    [("on", [TVar (mkVar "x" ["block"]); TVar (mkVar "y" ["small"; "block"])]); ("clear", [TVar (mkVar "x" ["block"])])]
    [ex_clear] [(("weight", [TVar (mkVar "x" ["block"])]), None); (("speed", []), Some "number")]
    [mkAction "down" [TVar bl] (Some ex_pre) (Some ex_eff)].
Ltac vars_tac := repeat apply Forall_cons; try apply Forall_nil; var_tac.
Ltac same_tac := intros ? ? H1 H2 ?; cbn in H1, H2; intuition (subst; try discriminate); intros ?; tauto.
Ltac last_tac vs := exists vs, []; repeat constructor; discriminate.
Ltac block_tac vs := split; [vars_tac|split; [repeat constructor|split; [last_tac vs|same_tac]]].
Example C33_ex : exists d s q, ex_domain = Ok d /\ domain_built d /\ expressible_domain d
  /\ NoDupE atom_eqb (map fst (d_functions d)) /\ show_domain d = Ok s
  /\ s = "(define (domain blocks)
    (:requirements :adl :derived-predicates :numeric-fluents :typing)
    (:types
        block - object
        small - block
    )
    (:constants table - block k)
    (:predicates (clear ?x - block)  (on ?x - block ?y - (either block small)))
    (:functions (speed) - number (weight ?x - block))
    (:derived (clear ?b - block) (not (exists (?u - block) (on ?u ?b))))
    (:action down
        :parameters (?b - block)
        :precondition (and (clear ?b) (not (on ?b table)) (>= (weight ?b) 1.5))
        :effect (and (on ?b table) (forall (?x - block) (when (on ?b ?x) (not (on ?b ?x)))) (decrease (weight ?b) 1))
    )
)"
  /\ parse_domain_fresh s = Ok q /\ domain_eqb q d = true.
Proof.
  destruct ex_domain as [d|] eqn:E; [|vm_compute in E; discriminate].
  assert (B : domain_built d) by (do 8 eexists; exact E).
  assert (N : NoDupE atom_eqb (map fst (d_functions d))).
  { vm_compute in E. inversion E; subst. clear. apply NDE_cons; [reflexivity|]. apply NDE_cons; [reflexivity|]. constructor. }
  assert (X : expressible_domain d).
  { vm_compute in E. inversion E; subst. clear. constructor; cbn [d_reqs d_constants d_predicates d_functions d_derived d_actions].
    - vm_compute. intuition discriminate.
    - split; [|split].
      + intros t p H. cbn in *. intuition (try discriminate). injection H0 as <- <-. auto.
      + cbn. intuition discriminate.
      + intros _. left. now left.
    - intros n g H. repeat destruct H as [H|H]; try inversion H; subst; (split; [legal_tac|]); intros t T;
        inversion T; subst; legal_tac.
    - repeat apply Forall_cons; [..|apply Forall_nil].
      + exists [mkVar "x" ["block"]; mkVar "y" ["small"; "block"]]. split; [reflexivity|]. split; [legal_tac|].
        split; [vars_tac|]. split; [same_tac|last_tac [mkVar "x" ["block"]; mkVar "y" ["small"; "block"]]].
      + exists [mkVar "x" ["block"]]. split; [reflexivity|]. split; [legal_tac|].
        split; [vars_tac|]. split; [same_tac|last_tac [mkVar "x" ["block"]]].
    - repeat apply Forall_cons; [..|apply Forall_nil].
      + exists [mkVar "x" ["block"]]. split; [reflexivity|]. split; [legal_tac|].
        split; [block_tac [mkVar "x" ["block"]]|]. split; [discriminate|now left].
      + exists []. split; [reflexivity|]. split; [legal_tac|].
        split; [block_tac (@nil var)|]. split; [reflexivity|now right].
    - apply Forall_cons; [|apply Forall_nil]. exists [bl], [TVar (mkVar "x" ["block"])].
      split; [reflexivity|]. split; [legal_tac|]. split; [vars_tac|]. split; [same_tac|]. split; [last_tac [bl]|].
      split; [cbn; auto|]. split; [intros us H; cbn in H; intuition congruence|].
      split; [constructor; [|constructor]; right; intros g G; now left|].
      split; [cbn [dp_cond]; repeat built_tac|]. split.
      + cbn [dp_cond bare map bare_term v_name]. apply C_not, C_exists; [allowed_tac|block_tac [ub]|apply C_atom; atom_tac].
      + cbn [scoped dp_cond]. repeat apply Forall_cons; try apply Forall_nil; intros g; cbn; tauto.
    - apply Forall_cons; [|apply Forall_nil]. exists [bl], ex_pre, ex_eff.
      split; [reflexivity|]. split; [legal_tac|]. split; [block_tac [bl]|]. split; [repeat constructor; intros []|].
      split; [repeat built_tac|]. split; [|split; [repeat built_tac|]].
      + apply C_and. repeat apply Forall_cons; [..|apply Forall_nil].
        * apply C_atom. atom_tac.
        * apply C_not, C_atom. atom_tac.
        * apply C_compare; [cbn; tauto|exp_tac|exp_tac].
      + apply F_and. repeat apply Forall_cons; [..|apply Forall_nil].
        * apply F_prim, P_atom. atom_tac.
        * apply F_forall; [block_tac [mkVar "x" ["block"]]|]. apply F_when; [apply C_atom; atom_tac|].
          apply Q_prim, P_not. atom_tac.
        * apply F_prim, P_assign; [cbn; tauto|legal_tac| |exp_tac]. repeat apply Forall_cons; try apply Forall_nil; fits_tac. }
  destruct (C33_domains_partial d B X N) as (s & q & Q1 & Q2 & Q3 & _).
  exists d, s, q. split; auto. split; auto. split; auto. split; auto. split; auto. split; [|auto].
  vm_compute in E. inversion E; subst. vm_compute in Q1. now inversion Q1.
Qed.
