(** C31: exactly which conditions and effects come back from their text. *)
From Coq Require Import String List Bool Arith ZArith Lia.
From Verif Require Import Py Names Reqs Logic Built Validation Core Lexer Show Parser.
From Verif Require Import Spec_Parse Spec_Print Spec_Text Spec_TextExact.
From Verif Require Import Py_facts Names_facts TextExact_facts Prop_Text.
Import ListNotations.
Open Scope string_scope.
Open Scope list_scope.

(** In any state of the domain parser, a condition made of legal terms, legal quantified variables
    and numbers that are not negative comes back from its text as an equal condition with the
    same constants if and only if it is one that PDDL can express there ([condition], Spec_Text.v);
    the same for effects. *)
Theorem C31_conditions_exact : forall st f, built f -> legal_parts f ->
  ((exists g, condition_in (domain_ctx st) (show_form f) = Ok g
              /\ form_eqb g f = true /\ constants_of g = constants_of f)
   <-> condition (domain_ctx st) f).
Proof. intros st f. now apply condition_exact. Qed.

Theorem C31_effects_exact : forall st f, built f -> legal_parts f ->
  ((exists g, effect_in (domain_ctx st) (show_form f) = Ok g
              /\ form_eqb g f = true /\ constants_of g = constants_of f)
   <-> effect_form (domain_ctx st) true f).
Proof. intros st f. now apply effect_text_exact. Qed.

(** The hypotheses hold of the examples of Prop_Text.v, and of conditions that do not come back: a
    difference, a sum of one operand, a quantified variable of two types. *)
Ltac parts_tac := repeat first
  [apply L_pred|apply L_eq|apply L_fun|apply L_num; cbn; lia|apply L_binfun|apply L_bin|apply L_not
  |apply L_quant|apply L_when|apply L_forall|apply Forall_cons|apply Forall_nil|legal_tac|var_tac].
Example C31_exact_ex :
  legal_parts ex_condition /\ legal_parts ex_effect
  /\ let minus := FBinFun BEqual [fun_f; FBinFun BMinus [fun_f; num_form 1]] in
     let two := FQuant QForall [vx ["t"; "u"]] (px []) in
     built minus /\ legal_parts minus /\ ~ condition (domain_ctx adl_state) minus
     /\ built two /\ legal_parts two /\ ~ condition (domain_ctx adl_state) two.
Proof.
  assert (A : built (FBinFun BEqual [fun_f; FBinFun BMinus [fun_f; num_form 1]])) by (repeat built_tac).
  assert (B : legal_parts (FBinFun BEqual [fun_f; FBinFun BMinus [fun_f; num_form 1]])) by parts_tac.
  assert (C : built (FQuant QForall [vx ["t"; "u"]] (px []))) by (unfold px, vx; repeat built_tac).
  assert (D : legal_parts (FQuant QForall [vx ["t"; "u"]] (px []))) by parts_tac.
  split; [parts_tac|]. split; [parts_tac|]. cbv zeta. split; [exact A|]. split; [exact B|]. split.
  - rewrite <- C31_conditions_exact by assumption. intros (g & G & _). vm_compute in G. discriminate G.
  - split; [exact C|]. split; [exact D|].
    rewrite <- C31_conditions_exact by assumption. intros (g & G & _). vm_compute in G. discriminate G.
Qed.

Print Assumptions C31_conditions_exact.
Print Assumptions C31_effects_exact.
