(** Properties of what parsed conditions mean (C47). *)
From Coq Require Import String List Bool ZArith QArith Lia.
From Verif Require Import Py Names Reqs Logic Validation Core Lexer TypedList UpdateTags Parser.
From Verif Require Import Sem Spec Spec_Parse Spec_Numbers Spec_Meaning.
From Verif Require Import Meaning_facts MeaningText_facts.
Import ListNotations.
Open Scope string_scope.
Open Scope list_scope.

(** * C47  A parsed condition means what its text says *)

(** preconditions: in every state and under every assignment of the variables, the parsed
    precondition holds exactly when the written one does *)
Theorem C47_actions_partial :
  forall s n sections d, domain_text s n sections -> parse_domain_fresh s = Ok d ->
    (forall a, In a (d_actions d) ->
       exists ps x y p,
         In (section_sx ":action" [name_sx (a_name a); SAtom (TKw ":parameters"); SList ps;
               SAtom (TKw ":precondition"); x; SAtom (TKw ":effect"); y]) sections
         /\ a_pre a = Some p
         /\ (x <> SList [] -> plain_arithmetic x -> forall I e, holds I e p <-> says I e x))
    /\ (forall an ps x y,
         In (section_sx ":action" [name_sx an; SAtom (TKw ":parameters"); SList ps;
               SAtom (TKw ":precondition"); x; SAtom (TKw ":effect"); y]) sections ->
         exists a p, In a (d_actions d) /\ a_name a = an /\ a_pre a = Some p
         /\ (x <> SList [] -> plain_arithmetic x -> forall I e, holds I e p <-> says I e x)).
Proof. exact parsed_preconditions. Qed.
Print Assumptions C47_actions_partial.

(** conditions of derived predicates, whose arguments are the variables written *)
Theorem C47_derived_partial :
  forall s n sections d, domain_text s n sections -> parse_domain_fresh s = Ok d ->
    (forall dp, In dp (d_derived d) -> exists vs groups tail x,
       In (section_sx ":derived" [SList (name_sx (dp_name dp) :: vs); x]) sections
       /\ written_vars vs groups tail /\ map t_name (dp_terms dp) = map fst (assigned groups tail)
       /\ (plain_arithmetic x -> forall I e, holds I e (dp_cond dp) <-> says I e x))
    /\ (forall pn vs x, In (section_sx ":derived" [SList (name_sx pn :: vs); x]) sections ->
       exists dp groups tail, In dp (d_derived d) /\ dp_name dp = pn
       /\ written_vars vs groups tail /\ map t_name (dp_terms dp) = map fst (assigned groups tail)
       /\ (plain_arithmetic x -> forall I e, holds I e (dp_cond dp) <-> says I e x)).
Proof. exact parsed_derived. Qed.
Print Assumptions C47_derived_partial.

(** initial states, without any condition on the text, and goals *)
Theorem C47_problem_partial :
  forall s n dn sections p, problem_text s n dn sections -> parse_problem s = Ok p ->
    exists before inits g after,
      sections = before ++ section_sx ":init" inits :: section_sx ":goal" [g] :: after
      /\ (forall x, In x inits -> exists f, In f (p_init p) /\ forall I e, holds I e f <-> says I e x)
      /\ (forall f, In f (p_init p) -> exists x, In x inits /\ forall I e, holds I e f <-> says I e x)
      /\ (plain_arithmetic g -> forall I e, holds I e (p_goal p) <-> says I e g).
Proof. exact parsed_problem_means. Qed.
Print Assumptions C47_problem_partial.

(** The two conditions are needed.  A sum with the same operand twice loses one of them, and the
    empty precondition, which asks for nothing, becomes one that never holds. *)
Definition double_domain : string :=
  "(define (domain d) (:requirements :numeric-fluents) (:predicates (done)) (:functions (fuel))
     (:action double :parameters () :precondition (>= (+ (fuel) (fuel)) 2) :effect (done))
     (:action free :parameters () :precondition () :effect (done)))".
Definition fuel_is (q : Q) : interp :=
  {| obj := unit; i_const := fun _ => tt; i_pred := fun _ _ => True;
     i_func := fun _ _ => q; i_type := fun _ _ => True |}.
Theorem C47_refuted :
  exists n sections d a1 a2 p1 p2,
    let x := SList [SAtom (TOp ">="); SList [SAtom (TOp "+"); SList [name_sx "fuel"];
                    SList [name_sx "fuel"]]; SAtom (TNum "2")] in
    domain_text double_domain n sections /\ parse_domain_fresh double_domain = Ok d
    /\ In (section_sx ":action" [name_sx "double"; SAtom (TKw ":parameters"); SList [];
             SAtom (TKw ":precondition"); x; SAtom (TKw ":effect"); SList [name_sx "done"]]) sections
    /\ In (section_sx ":action" [name_sx "free"; SAtom (TKw ":parameters"); SList [];
             SAtom (TKw ":precondition"); SList []; SAtom (TKw ":effect"); SList [name_sx "done"]])
          sections
    /\ In a1 (d_actions d) /\ a_name a1 = "double" /\ a_pre a1 = Some p1
    /\ In a2 (d_actions d) /\ a_name a2 = "free" /\ a_pre a2 = Some p2
    /\ (forall e, says (fuel_is 1) e x) /\ (forall e, ~ holds (fuel_is 1) e p1)
    /\ (forall I e, says I e (SList [])) /\ (forall I e, ~ holds I e p2).
Proof.
  do 7 eexists. cbv zeta. split; [vm_compute; reflexivity|]. split; [vm_compute; reflexivity|].
  split; [right; right; right; left; reflexivity|].
  split; [right; right; right; right; left; reflexivity|].
  split; [left; reflexivity|]. split; [reflexivity|]. split; [reflexivity|].
  split; [right; left; reflexivity|]. split; [reflexivity|]. split; [reflexivity|].
  split; [|split; [|split]].
  - intros e. cbn [says]. right. split; [intros [X _]; discriminate|].
    exists (SList [SAtom (TOp "+"); SList [name_sx "fuel"]; SList [name_sx "fuel"]]), (SAtom (TNum "2")),
      (1 + (1 + 0))%Q, 2%Q. split; [reflexivity|]. split; [|split].
    + apply (am_sum (fuel_is 1) e [SList [name_sx "fuel"]; SList [name_sx "fuel"]] [1%Q; 1%Q]).
      repeat constructor; apply (am_fun (fuel_is 1) e "fuel" [] []); constructor.
    + constructor. left. exists 2%Z. repeat split; discriminate || reflexivity.
    + do 4 right. split; [reflexivity|]. vm_compute. discriminate.
  - intros e. vm_compute. intros X. apply X. reflexivity.
  - intros I e. exact Logic.I.
  - intros I e X. exact X.
Qed.
Print Assumptions C47_refuted.

(** a domain whose conditions satisfy the hypotheses *)
Definition trip_domain : string :=
  "(define (domain d) (:requirements :typing :numeric-fluents :quantified-preconditions :equality
                       :disjunctive-preconditions :negative-preconditions :derived-predicates)
     (:types place - object) (:constants home - place)
     (:predicates (at ?p - place) (open ?p - place) (stuck ?p - place)) (:functions (fuel) (need ?p - place))
     (:derived (stuck ?p - place) (forall (?q - place) (or (= ?q ?p) (not (open ?q)))))
     (:action go :parameters (?p - place)
        :precondition (and (>= (fuel) (+ (need ?p) 1.5)) (exists (?q - place) (imply (at ?q) (= ?q home))))
        :effect (at ?p)))".
Definition trip_cond : sexp :=
  SList [name_sx "and";
    SList [SAtom (TOp ">="); SList [name_sx "fuel"];
      SList [SAtom (TOp "+"); SList (name_sx "need" :: var_sx "p"); SAtom (TNum "1.5")]];
    SList [name_sx "exists"; SList (var_sx "q" ++ [SAtom (TOp "-"); name_sx "place"]);
      SList [name_sx "imply"; SList (name_sx "at" :: var_sx "q");
             SList (SAtom (TOp "=") :: var_sx "q" ++ [name_sx "home"])]]].
Example C47_witness :
  exists n l d a p ps y, domain_text trip_domain n l /\ parse_domain_fresh trip_domain = Ok d
    /\ d_actions d = [a] /\ a_pre a = Some p /\ List.length (d_derived d) = 1%nat
    /\ In (section_sx ":action" [name_sx "go"; SAtom (TKw ":parameters"); SList ps;
             SAtom (TKw ":precondition"); trip_cond; SAtom (TKw ":effect"); y]) l.
Proof.
  do 7 eexists. split; [vm_compute; reflexivity|]. split; [vm_compute; reflexivity|].
  split; [reflexivity|]. split; [reflexivity|]. split; [reflexivity|].
  do 6 right. left. vm_compute. reflexivity.
Qed.
Ltac unfold_inside :=
  repeat match goal with
  | H : inside _ (SAtom _) |- _ => inversion H; subst; clear H
  | H : inside _ (SList _) |- _ => inversion H; subst; clear H
  | H : In _ [] |- _ => destruct H
  | H : In _ (_ :: _) |- _ => destruct H as [H|H]; [subst|]
  end.
Example C47_plain : plain_arithmetic trip_cond /\ trip_cond <> SList [].
Proof.
  split; [split|discriminate].
  - intros o l O X. unfold trip_cond, var_sx, name_sx, app in X.
    assert (E : o = "+" /\ l = [SList (name_sx "need" :: var_sx "p"); SAtom (TNum "1.5")]).
    { unfold_inside; try discriminate; try (injection H0 as <- <-; split; reflexivity);
        repeat match goal with H : In _ _ |- _ => destruct H as [H|H]; try discriminate end; tauto. }
    destruct E as [-> ->]. repeat constructor.
    intros H. inversion H as [|? ? ? ? F1 F2|]; subst. destruct F2 as [F2|[F2 _]]; discriminate.
  - intros x l X. unfold trip_cond, var_sx, name_sx, app in X. unfold_inside.
Qed.
Definition trip_problem : string :=
  "(define (problem q) (:domain d) (:objects a - place)
     (:init (at a) (not (open a)) (= (fuel) 3.0) (= (need a) 1)) (:goal (and (at a) (< (fuel) 2))))".
Example C47_problem_witness :
  exists n dn l p, problem_text trip_problem n dn l /\ parse_problem trip_problem = Ok p
    /\ List.length (p_init p) = 4%nat.
Proof. do 4 eexists. split; [vm_compute; reflexivity|]. split; [vm_compute; reflexivity|reflexivity]. Qed.
