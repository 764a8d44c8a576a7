(** Properties of the representation of objects, [repr] (C75). *)
From Coq Require Import String List Bool ZArith.
From Verif Require Import Py Req Names Reqs Logic Validation Core Show Repr.
From Verif Require Import Names_facts Spec_Print Spec_Numbers Spec_Distinct Spec_Repr Repr_facts Prop_Text.
Import ListNotations.
Open Scope string_scope.
Open Scope list_scope.

(** * C75  The representation of an object identifies it *)

(** exactly when two objects have the same representation, wherever their parts are in memory *)
Theorem C75_formulas : forall addr addr' f g, well_named f -> well_named g ->
  no_bare_number f -> no_bare_number g -> (repr_form addr f = repr_form addr' g <-> same_repr f g).
Proof. intros. now apply repr_iff. Qed.
Print Assumptions C75_formulas.

Theorem C75_terms : forall t u, legal_name (t_name t) -> legal_name (t_name u) ->
  (repr_term t = repr_term u <-> same_word t u).
Proof. exact repr_word_iff. Qed.
Print Assumptions C75_terms.

Theorem C75_derived : forall addr addr' a b, legal_name (dp_name a) -> legal_name (dp_name b) ->
  Forall (fun t => legal_name (t_name t)) (dp_terms a) -> Forall (fun t => legal_name (t_name t)) (dp_terms b) ->
  well_named (dp_cond a) -> well_named (dp_cond b) -> no_bare_number (dp_cond a) -> no_bare_number (dp_cond b) ->
  (repr_derived addr a = repr_derived addr' b <->
   dp_name a = dp_name b /\ Forall2 same_word (dp_terms a) (dp_terms b) /\ same_repr (dp_cond a) (dp_cond b)).
Proof. intros. now apply derived_iff. Qed.
Print Assumptions C75_derived.

Theorem C75_metrics : forall a b, well_named (me_expr a) -> well_named (me_expr b) ->
  (repr_metric a = repr_metric b <-> same_reading (me_expr a) (me_expr b) /\ me_opt a = me_opt b).
Proof. exact metric_iff. Qed.
Print Assumptions C75_metrics.

Theorem C75_actions : forall a b, action_named a -> action_named b ->
  (repr_action a = repr_action b <->
   a_name a = a_name b /\ Forall2 same_word (a_params a) (a_params b)
   /\ same_body (a_pre a) (a_pre b) /\ same_body (a_eff a) (a_eff b)).
Proof. exact action_iff. Qed.
Print Assumptions C75_actions.

Theorem C75_requirements : forall r s, repr_req r = repr_req s <-> r = s.
Proof. intros r s. split; [|now intros ->]. destruct r, s; intros E; reflexivity || discriminate E. Qed.
Print Assumptions C75_requirements.

(** so, without types, numbers and sets, the representation is the same exactly for equal objects *)
Theorem C75_equal_partial : forall addr addr' funs texts cond f g, well_named f -> well_named g ->
  no_bare_number f -> no_bare_number g -> plain funs texts cond f -> plain funs texts cond g ->
  bound_untyped f -> bound_untyped g -> repr_form addr f = repr_form addr' g -> form_eqb f g = true.
Proof.
  intros addr addr' funs texts cond f g W V N M P Q B C E. apply repr_iff in E; auto. eapply repr_equal; eauto.
Qed.
Print Assumptions C75_equal_partial.
Theorem C75_same_partial : forall addr addr' f g, well_named f -> well_named g -> no_sets f -> no_sets g ->
  form_eqb f g = true -> repr_form addr f = repr_form addr' g.
Proof.
  intros addr addr' f g W V N M E. apply repr_iff; auto using no_sets_bare, equal_repr.
Qed.
Print Assumptions C75_same_partial.

(** The property is false of the code.  Types are left out: *)
Theorem C75_refuted : exists v w f g, mk_var "x" (CList ["t"]) = Ok v /\ mk_var "x" (CList ["u"]) = Ok w
  /\ mk_pred "p" [TVar v] = Ok f /\ mk_pred "p" [TVar w] = Ok g
  /\ repr_term (TVar v) = repr_term (TVar w) /\ term_eqb (TVar v) (TVar w) = false
  /\ (forall addr addr', repr_form addr f = repr_form addr' g) /\ form_eqb f g = false.
Proof.
  do 4 eexists. split; [vm_compute; reflexivity|]. split; [vm_compute; reflexivity|].
  split; [vm_compute; reflexivity|]. split; [vm_compute; reflexivity|]. repeat split.
Qed.
Print Assumptions C75_refuted.
(** a number is represented by its address: equal numbers by different texts, and different
    numbers, if they are in the same place one after the other, by the same text *)
Theorem C75_numbers_refuted :
  (exists f addr addr', form_eqb f f = true /\ repr_form addr f <> repr_form addr' f)
  /\ (exists f g, form_eqb f g = false /\ forall addr, repr_form addr f = repr_form addr g).
Proof.
  split.
  - exists (FNumVal (NInt 1)), (fun _ => "0x10"), (fun _ => "0x20"). split; [reflexivity|discriminate].
  - exists (FNumVal (NInt 1)), (FNumVal (NInt 2)). split; [reflexivity|reflexivity].
Qed.
Print Assumptions C75_numbers_refuted.
(** the variables of a quantifier are represented in the order of the set *)
Theorem C75_order_refuted : exists f g, form_eqb f g = true
  /\ forall addr addr', repr_form addr f <> repr_form addr' g.
Proof.
  exists (FQuant QForall [mkVar "x" []; mkVar "y" []] (FPred "p" [])),
         (FQuant QForall [mkVar "y" []; mkVar "x" []] (FPred "p" [])).
  split; [reflexivity|]. intros addr addr'. discriminate.
Qed.
Print Assumptions C75_order_refuted.

(** formulas and actions that meet the hypotheses *)
Definition rich : form :=
  FBin OAnd [FPred "at" [TVar (mkVar "x" []); TConst "home" (Some "place")];
    FNot (FEq (TVar (mkVar "x" [])) (TConst "home" None));
    FBinFun BLess [FNumFun "cost" [TVar (mkVar "x" [])]; FNumFun "total-cost" []];
    FQuant QForall [mkVar "y" []] (FBinFun BGreater [FNumFun "cost" [TVar (mkVar "y" [])]; FNumVal (NInt 3)])].
Example C75_witness :
  well_named rich /\ no_bare_number rich /\ bound_untyped rich
  /\ plain (fun n => In n ["cost"; "total-cost"]) false true rich
  /\ (forall addr, repr_form addr rich =
       "And([Predicate(at, ?x, home), Not(EqualTo(Variable(x), Constant(home))), LesserThan((NumericFunction(cost, ?x), NumericFunction(total-cost, ))), ForallCondition(frozenset({Variable(y)}), (> (cost ?y) 3))])")
  /\ repr_action (mkAction "go" [TVar (mkVar "x" ["place"]); TVar (mkVar "y" [])] None (Some (FPred "at" [TVar (mkVar "y" [])]))) =
       "Action(go, parameters=?x, ?y, precondition=None, effect=(at ?y))"
  /\ action_named (mkAction "go" [TVar (mkVar "x" ["place"]); TVar (mkVar "y" [])] None (Some (FPred "at" [TVar (mkVar "y" [])]))).
Proof.
  assert (D : dotted "3") by (apply (D_digits _ 3%Z); [discriminate|reflexivity]).
  split.
  { cbn [well_named rich fold_right]. repeat (exact Logic.I || exact D || legal_tac || apply Forall_nil || apply Forall_cons || var_tac || split). }
  split; [cbn; tauto|]. split; [cbn; repeat constructor|].
  split.
  { cbn. repeat split; auto 10; repeat constructor; intuition discriminate. }
  split; [reflexivity|]. split; [reflexivity|].
  unfold action_named. cbn [a_name a_params a_pre a_eff named_body well_named].
  repeat (exact Logic.I || legal_tac || apply Forall_nil || apply Forall_cons || split).
Qed.
