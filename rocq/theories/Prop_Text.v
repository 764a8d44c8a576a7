(** C31: printed conditions and effects. *)
From Coq Require Import String List Bool Arith ZArith Lia.
From Verif Require Import Py Names Reqs Logic Built Validation Core Lexer Show Parser.
From Verif Require Import Spec_Parse Spec_Print Spec_Text.
From Verif Require Import Py_facts Names_facts Vars_facts FormText_facts Prop_Vars.
Import ListNotations.
Open Scope string_scope.
Open Scope list_scope.

(** In any state of the domain parser (declared requirements, constants, parameters of the
    current action), the text of a condition that PDDL can express is read back as an equal
    condition.  [condition] (Spec_Text.v) asks that names be legal, that constants be the
    declared ones and variables the current parameters or untyped, that the requirements of the
    connectives be declared, that numbers be non-negative, arithmetic operators have as many
    operands as the grammar wants, and that quantified variables have at most one type each. *)
Theorem C31_conditions_partial : forall st f, built f -> condition (domain_ctx st) f ->
  exists g, condition_in (domain_ctx st) (show_form f) = Ok g /\ form_eqb g f = true.
Proof. intros st f. apply condition_text. now left. Qed.

Theorem C31_effects_partial : forall st f, built f -> effect_form (domain_ctx st) true f ->
  exists g, effect_in (domain_ctx st) (show_form f) = Ok g /\ form_eqb g f = true.
Proof. intros st f. apply effect_text; [now left|reflexivity]. Qed.

(** Without these conditions the property is false of the code.  With :adl, the types t and u and
    no parameter: a quantified variable of two types, a difference, a negative number and a sum
    of equal terms do not parse; a quantified variable whose occurrences carry its type comes
    back different, and so does an untyped variable quantified before a typed one. *)
Definition adl_state : dstate := mkD [] [] [] (extend_reqs [ADL; NUMERIC_FLUENTS]) None.
Definition vx (ts : list string) : var := mkVar "x" ts.
Definition px (ts : list string) : form := FPred "p" [TVar (vx ts)].
Definition num_form (z : Z) : form := FNumVal (NInt z).
Definition fun_f : form := FNumFun "f" [].
Theorem C31_refuted :
  let c := domain_ctx adl_state in
  let two := FQuant QForall [vx ["t"; "u"]] (px []) in
  let minus := FBinFun BEqual [fun_f; FBinFun BMinus [fun_f; num_form 1]] in
  let neg := FBinFun BEqual [fun_f; num_form (-1)] in
  let sum := FBinFun BEqual [fun_f; FBinFun BPlus [num_form 1]] in
  let typed := FQuant QForall [vx ["t"]] (px ["t"]) in
  let before := FQuant QForall [vx []; mkVar "y" ["t"]] (px []) in
  Forall built [two; minus; neg; sum; typed; before]
  /\ mk_binfun BPlus [num_form 1; num_form 1] = FBinFun BPlus [num_form 1]
  /\ Forall (fun f => condition_in c (show_form f) = Err LarkSyntaxError) [two; minus; neg; sum]
  /\ condition_in c (show_form typed) = Ok (FQuant QForall [vx ["t"]] (px []))
  /\ form_eqb (FQuant QForall [vx ["t"]] (px [])) typed = false
  /\ condition_in c (show_form before)
     = Ok (FQuant QForall [vx ["t"]; mkVar "y" ["t"]] (px []))
  /\ form_eqb (FQuant QForall [vx ["t"]; mkVar "y" ["t"]] (px [])) before = false.
Proof.
  intros c two minus neg sum typed before.
  assert (P : forall ts, built (px ts)).
  { intros ts. apply (B_pred "p" [TVar (vx ts)]). apply mk_pred_iff. split; auto. split.
    - apply parse_name_Ok. vm_compute. reflexivity.
    - intros t u [<-|[]] [<-|[]] _ g. tauto. }
  assert (F : built fun_f).
  { apply (B_numfun "f" []). vm_compute. reflexivity. }
  assert (N : forall z, built (num_form z)) by (intros; apply B_numval).
  assert (Q : forall vs f, NoDup (map v_name vs) -> built f -> built (FQuant QForall vs f)).
  { intros vs f D B. replace (FQuant QForall vs f) with (mk_quant QForall vs f); [now apply B_quant|].
    unfold mk_quant. f_equal. apply dedup_id; [apply Logic_facts.var_eqb_equiv|].
    induction vs as [|v vs IH]; [constructor|]. inversion D; subst. constructor; auto.
    apply not_true_is_false. intros M. unfold memb in M. apply existsb_exists in M as (w & W & E).
    apply H1. apply in_map_iff. exists w. split; auto. unfold var_eqb in E.
    apply andb_true_iff in E as [E _]. now apply String.eqb_eq in E. }
  split.
  - repeat apply Forall_cons; [..|apply Forall_nil].
    + apply Q; auto. repeat constructor; intros [].
    + apply (B_binfun BEqual [fun_f; FBinFun BMinus [fun_f; num_form 1]]).
      repeat constructor; auto. apply (B_binfun BMinus [fun_f; num_form 1]). repeat constructor; auto.
    + apply (B_binfun BEqual [fun_f; num_form (-1)]). repeat constructor; auto.
    + apply (B_binfun BEqual [fun_f; FBinFun BPlus [num_form 1]]).
      repeat constructor; auto. apply (B_binfun BPlus [num_form 1]). repeat constructor; auto.
    + apply Q; auto. repeat constructor; intros [].
    + apply Q; auto. repeat constructor; cbn; intuition discriminate.
  - split; [vm_compute; reflexivity|]. split; [repeat constructor; vm_compute; reflexivity|].
    repeat split; vm_compute; reflexivity.
Qed.

(** conditions that meet the hypotheses: a parameter ?b of type t, a constant a of type t *)
Definition ex_state : dstate :=
  mkD [("a", ("a", Some "t"))] [] [("b", mkVar "b" ["t"])] (extend_reqs [ADL; NUMERIC_FLUENTS]) None.
Definition ex_condition : form :=
  FBin OAnd [FPred "on" [TVar (mkVar "b" ["t"]); TConst "a" (Some "t")];
             FBin OOr [FNot (FEq (TVar (mkVar "b" ["t"])) (TConst "a" (Some "t")));
                       FBin OImply [FPred "q" []; FPred "r" []]];
             FQuant QExists [mkVar "x" ["t"]; mkVar "y" []] (FPred "on" [TVar (mkVar "x" []); TVar (mkVar "b" ["t"])]);
             FBinFun BLess [FBinFun BPlus [fun_f; num_form 3]; FNumVal (NDec 25 1)]].
(** proofs that concrete formulas are built by the constructors and fit a context *)
Ltac built_tac :=
  match goal with
  | |- built (FPred ?n ?ts) => apply (B_pred n ts); vm_compute; reflexivity
  | |- built (FEq ?l ?r) => apply (B_eq l r); vm_compute; reflexivity
  | |- built (FNumFun ?n ?ts) => apply (B_numfun n ts); vm_compute; reflexivity
  | |- built (FNumVal _) => apply B_numval
  | |- built (FBin ?k ?ops) => change (built (mk_bin k ops)); apply B_bin
  | |- built (FBinFun ?k ?ops) => change (built (mk_binfun k ops)); apply B_binfun
  | |- built (FNot _) => apply B_not
  | |- built (FQuant ?q ?vs ?f) => change (built (mk_quant q vs f)); apply B_quant
  | |- built (FWhen _ _) => apply B_when
  | |- built (FForall ?vs ?f) => change (built (mk_forall vs f)); apply B_forall
  | |- built (num_form _) => apply B_numval
  | |- built ?x => unfold x
  | |- Forall _ [] => apply Forall_nil
  | |- Forall _ (_ :: _) => apply Forall_cons
  end.
Ltac legal_tac := first [apply parse_name_Ok; vm_compute; reflexivity
                        |apply parse_type_Ok; vm_compute; reflexivity
                        |apply parse_function_Ok; vm_compute; reflexivity].
Ltac fits_tac := split; [legal_tac|vm_compute; try reflexivity; try (split; [reflexivity|intros; tauto])].
Ltac consistent_tac := apply check_terms_consistency_Ok; vm_compute; reflexivity.
Ltac allowed_tac := exists ADL; split; [cbn; tauto|vm_compute; tauto].
Ltac var_tac := split; [legal_tac|split; [repeat apply Forall_cons; try apply Forall_nil; legal_tac|repeat constructor; cbn; intuition discriminate]].
Ltac atom_tac := first
  [apply A_pred; [legal_tac|repeat apply Forall_cons; try apply Forall_nil; fits_tac|consistent_tac]
  |apply A_eq; [vm_compute; tauto|fits_tac|fits_tac|consistent_tac]].
Ltac exp_tac := repeat first
  [apply E_fun; [legal_tac|repeat apply Forall_cons; try apply Forall_nil; fits_tac]
  |apply E_int; lia|apply E_dec; lia|apply E_sum; [cbn; lia|]|apply E_product; [cbn; lia|]
  |apply E_quotient|apply E_minus|apply Forall_cons|apply Forall_nil].
Example C31_ex :
  built ex_condition /\ condition (domain_ctx ex_state) ex_condition
  /\ show_form ex_condition
     = "(and (on ?b a) (or (not (= ?b a)) (imply (q) (r))) (exists (?x - t ?y) (on ?x ?b)) (< (+ (f) 3) 2.5))"
  /\ condition_in (domain_ctx ex_state) (show_form ex_condition) = Ok ex_condition.
Proof.
  split; [|split; [|split]].
  - repeat built_tac.
  - apply C_and. repeat apply Forall_cons; [..|apply Forall_nil].
    + apply C_atom. atom_tac.
    + apply C_or; [allowed_tac|]. repeat apply Forall_cons; [..|apply Forall_nil].
      * apply C_not, C_atom. atom_tac.
      * apply C_imply; [allowed_tac| |]; apply C_atom; atom_tac.
    + apply C_exists; [allowed_tac| |apply C_atom; atom_tac]. split; [|split; [|split]].
      * repeat apply Forall_cons; [var_tac|var_tac|apply Forall_nil].
      * repeat constructor.
      * exists [mkVar "x" ["t"]], [mkVar "y" []]. repeat constructor; discriminate.
      * intros v w [<-|[<-|[]]] [<-|[<-|[]]] E; try discriminate; intros g; tauto.
    + apply C_compare; [cbn; tauto|exp_tac|exp_tac].
  - vm_compute. reflexivity.
  - vm_compute. reflexivity.
Qed.
Definition ex_effect : form :=
  FBin OAnd [FForall [mkVar "x" ["t"]]
               (FWhen (FPred "on" [TVar (mkVar "x" []); TVar (mkVar "b" ["t"])])
                  (FBin OAnd [FNot (FPred "on" [TVar (mkVar "x" []); TVar (mkVar "b" ["t"])]);
                              FPred "clear" [TVar (mkVar "x" [])]]));
             FBinFun BIncrease [FNumFun "total-cost" []; FBinFun BTimes [num_form 2; fun_f]]].
Example C31_effect_ex :
  built ex_effect /\ effect_form (domain_ctx ex_state) true ex_effect
  /\ show_form ex_effect
     = "(and (forall (?x - t) (when (on ?x ?b) (and (not (on ?x ?b)) (clear ?x)))) (increase (total-cost) (* 2 (f))))"
  /\ effect_in (domain_ctx ex_state) (show_form ex_effect) = Ok ex_effect.
Proof.
  split; [|split; [|split]].
  - repeat built_tac.
  - apply F_and. repeat apply Forall_cons; [..|apply Forall_nil].
    + apply F_forall.
      * split; [|split; [|split]].
        -- repeat apply Forall_cons; [var_tac|apply Forall_nil].
        -- repeat constructor.
        -- exists [mkVar "x" ["t"]], []. repeat constructor; discriminate.
        -- intros v w [<-|[]] [<-|[]] E g. tauto.
      * apply F_when; [apply C_atom; atom_tac|]. apply Q_and. repeat apply Forall_cons; [..|apply Forall_nil].
        -- apply P_not. atom_tac.
        -- apply P_atom. atom_tac.
    + apply F_prim, P_assign; [cbn; tauto|legal_tac|constructor|exp_tac].
  - vm_compute. reflexivity.
  - vm_compute. reflexivity.
Qed.

Print Assumptions C31_conditions_partial.
Print Assumptions C31_effects_partial.
Print Assumptions C31_refuted.
