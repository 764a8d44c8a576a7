(** Properties of what parsed metrics mean (C47). *)
From Coq Require Import String List Bool ZArith QArith Lia.
From Verif Require Import Py Names Reqs Logic Validation Core Lexer TypedList UpdateTags Parser.
From Verif Require Import Sem Spec Spec_Parse Spec_Numbers Spec_Meaning Spec_Metric.
From Verif Require Import Metric_facts.
Import ListNotations.
Open Scope string_scope.
Open Scope list_scope.

(** * C47  A parsed metric has the value its text says *)

(** the library keeps the numbers of a metric as texts; reading each of them as the number it
    writes, the metric of the problem has in every state the value of the written one *)
Theorem C47_metric_partial :
  forall s n dn sections p m, problem_text s n dn sections -> parse_problem s = Ok p -> p_metric p = Some m ->
    exists x, In (section_sx ":metric" [name_sx (me_opt m); x]) sections
      /\ (numerals_only x -> plain_arithmetic x ->
          (exists f, stands_for (me_expr m) f)
          /\ forall f, stands_for (me_expr m) f ->
               forall I e, exists q, amount I e x q /\ (value I e f == q)%Q).
Proof. intros s n dn l p m. apply parsed_metric. Qed.
Print Assumptions C47_metric_partial.

(** A metric with the same operand twice loses one of them: twice the fuel becomes the fuel. *)
Definition twice_problem : string :=
  "(define (problem p) (:domain d) (:init) (:goal (and))
     (:metric minimize (+ (fuel) (fuel))))".
Definition burning (q : Q) : interp :=
  {| obj := unit; i_const := fun _ => tt; i_pred := fun _ _ => True;
     i_func := fun _ _ => q; i_type := fun _ _ => True |}.
Theorem C47_metric_refuted :
  exists n dn sections p m,
    let x := SList [SAtom (TOp "+"); SList [name_sx "fuel"]; SList [name_sx "fuel"]] in
    problem_text twice_problem n dn sections /\ parse_problem twice_problem = Ok p
    /\ p_metric p = Some m /\ In (section_sx ":metric" [name_sx "minimize"; x]) sections
    /\ (forall e, amount (burning 3) e x 6)
    /\ stands_for (me_expr m) (me_expr m) /\ (forall e, (value (burning 3) e (me_expr m) == 3)%Q).
Proof.
  do 5 eexists. cbv zeta. split; [vm_compute; reflexivity|]. split; [vm_compute; reflexivity|].
  split; [reflexivity|]. split; [right; right; left; reflexivity|]. split; [|split].
  - intros e. apply (am_sum (burning 3) e [SList [name_sx "fuel"]; SList [name_sx "fuel"]] [3%Q; 3%Q]).
    repeat constructor; apply (am_fun (burning 3) e "fuel" [] []); constructor.
  - cbn. repeat constructor.
  - intros e. reflexivity.
Qed.
Print Assumptions C47_metric_refuted.

(** a metric whose text satisfies the hypotheses *)
Definition cheap_problem : string :=
  "(define (problem p) (:domain d) (:requirements :numeric-fluents) (:objects a b) (:init) (:goal (and))
     (:metric minimize (+ (total-cost) (* 2.5 (dist a b)) 1)))".
Definition cheap : sexp :=
  SList [SAtom (TOp "+"); SList [name_sx "total-cost"];
    SList [SAtom (TOp "*"); SAtom (TNum "2.5"); SList [name_sx "dist"; name_sx "a"; name_sx "b"]];
    SAtom (TNum "1")].
Ltac unfold_inside :=
  repeat match goal with
  | H : inside _ (SAtom _) |- _ => inversion H; subst; clear H
  | H : inside _ (SList _) |- _ => inversion H; subst; clear H
  | H : number_in _ (SAtom _) |- _ => inversion H; subst; clear H
  | H : number_in _ (SList _) |- _ => inversion H; subst; clear H
  | H : In _ [] |- _ => destruct H
  | H : In _ (_ :: _) |- _ => destruct H as [H|H]; [subst|]
  end.
Example C47_metric_witness :
  exists n dn sections p m, problem_text cheap_problem n dn sections /\ parse_problem cheap_problem = Ok p
    /\ p_metric p = Some m /\ me_opt m = "minimize"
    /\ In (section_sx ":metric" [name_sx "minimize"; cheap]) sections /\ numerals_only cheap
    /\ plain_arithmetic cheap.
Proof.
  do 5 eexists. split; [vm_compute; reflexivity|]. split; [vm_compute; reflexivity|].
  split; [reflexivity|]. split; [reflexivity|].
  split; [right; right; right; right; left; reflexivity|]. split.
  - assert (N1 : numeral "1" 1) by (left; exists 1%Z; repeat split; discriminate).
    assert (N2 : numeral "2.5" (5 # 2)).
    { right. exists "2", "5", 2%Z, 5%Z. repeat split; discriminate. }
    intros s X. unfold cheap, name_sx in X.
    unfold_inside; eauto.
  - split.
    + intros o l O X. unfold cheap, name_sx in X. unfold_inside; try discriminate.
      * repeat constructor; intros H; inversion H as [|? ? ? ? F1 F2|]; subst;
          destruct F1 as [F1|[F1 _]], F2 as [F2|[F2 _]]; discriminate.
      * repeat constructor; intros H; inversion H as [|? ? ? ? F1 F2|]; subst;
          destruct F1 as [F1|[F1 _]], F2 as [F2|[F2 _]]; discriminate.
    + intros x l X. unfold cheap, name_sx in X. unfold_inside.
Qed.
