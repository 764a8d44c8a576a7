(** C51, continued: the initial state of a parsed problem. *)
From Coq Require Import String List Bool ZArith QArith.
From Verif Require Import Py Names Reqs Logic Core Lexer Parser.
From Verif Require Import Spec_Core Spec_Parse Spec_Features Spec_Numbers Spec_Declared Spec_Init.
From Verif Require Import Py_facts Init_facts Prop_Declared.
Import ListNotations.
Open Scope string_scope.
Open Scope list_scope.

(** The initial state consists of the literals and function values that the :init section lists:
    the predicates, functions, arguments and numbers written there, the arguments of predicates with
    the types their declarations give them.  What is listed twice is kept once: where two listed
    elements are equal ([==]: (= (f) 1) and (= (f) 1.0)), one of them is there. *)
Theorem C51_init :
  forall s n dn sections p, problem_text s n dn sections -> parse_problem s = Ok p ->
    exists before inits after,
      sections = before ++ section_sx ":init" inits :: after
      /\ (forall f, In f (p_init p) -> exists x, In x inits /\ init_says sections x f)
      /\ (forall x, In x inits -> exists f f', init_says sections x f /\ In f' (p_init p) /\ form_eqb f f' = true)
      /\ NoDupE form_eqb (p_init p).
Proof. exact parsed_init. Qed.
Print Assumptions C51_init.

Definition start_problem : string :=
  "(define (problem trip) (:domain tolls) (:objects a b - car m)
     (:init (on a m) (not (on b m)) (= (fuel a) 2.5) (= cost 0) (on a m) (at a depot)) (:goal (on b m)))".
Example C51_init_witness :
  exists n dn sections p, problem_text start_problem n dn sections /\ parse_problem start_problem = Ok p
    /\ p_init p = [FPred "on" [TConst "a" (Some "car"); TConst "m" None];
                   FNot (FPred "on" [TConst "b" (Some "car"); TConst "m" None]);
                   FBinFun BEqual [FNumFun "fuel" [TConst "a" None]; FNumVal (NDec 25 1)];
                   FBinFun BEqual [FNumFun "cost" []; FNumVal (NInt 0)];
                   FPred "at" [TConst "a" (Some "car"); TConst "depot" None]].
Proof.
  do 4 eexists. split; [vm_compute; reflexivity|]. split; vm_compute; reflexivity.
Qed.
