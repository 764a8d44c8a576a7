(** C63: negative preconditions, conditional effects and derived predicates need their flags. *)
From Coq Require Import String List Bool ZArith.
From Verif Require Import Py Names Reqs Logic Validation Core Lexer TypedList UpdateTags Parser.
From Verif Require Import Spec_Reqs Spec_Parse Spec_Features Spec_Grow Spec_Ignored Ignored_facts.
Import ListNotations.
Open Scope string_scope.
Open Scope list_scope.

(** false: a domain that declares nothing is accepted, with a negative precondition, a comparison
    of numbers, a conditional effect, a numeric effect and a derived predicate *)
Definition flagless : string :=
  "(define (domain d) (:predicates (p ?x))
     (:action a :parameters (?x)
        :precondition (and (not (p ?x)) (> (f ?x) 1))
        :effect (and (when (p ?x) (not (p ?x))) (increase (f ?x) 1)))
     (:derived (p ?x) (not (p ?x))))".
Definition x_var : term := TVar (mkVar "x" []).
Theorem C63_refuted :
  exists d a dp, parse_domain_fresh flagless = Ok d /\ d_reqs d = [] /\
    d_actions d = [a] /\ d_derived d = [dp] /\
    a_pre a = Some (FBin OAnd [FNot (FPred "p" [x_var]); FBinFun BGreater [FNumFun "f" [x_var]; FNumVal (NInt 1%Z)]]) /\
    a_eff a = Some (FBin OAnd [FWhen (FPred "p" [x_var]) (FNot (FPred "p" [x_var]));
                               FBinFun BIncrease [FNumFun "f" [x_var]; FNumVal (NInt 1%Z)]]).
Proof. do 3 eexists. repeat split; vm_compute; reflexivity. Qed.
Print Assumptions C63_refuted.

(** what does hold: :strips, :negative-preconditions, :conditional-effects and
    :derived-predicates never make a difference, whatever the domain uses *)
Theorem C63_partial : forall s s' n declared declared' rest,
  other_sections rest -> ~ In OBJECT_FLUENTS declared -> ~ In OBJECT_FLUENTS declared' ->
  same_used_flags declared declared' ->
  domain_text s n (declared_sx declared ++ rest) -> domain_text s' n (declared_sx declared' ++ rest) ->
  same_outcome (parse_domain_fresh s) (parse_domain_fresh s').
Proof. exact parse_domain_same. Qed.
Print Assumptions C63_partial.

Theorem C63_constructor_partial : forall n declared declared' types constants predicates derived functions actions,
  same_used_flags declared declared' ->
  same_outcome (mk_domain n declared types constants predicates derived functions actions)
               (mk_domain n declared' types constants predicates derived functions actions).
Proof. exact mk_domain_same. Qed.
Print Assumptions C63_constructor_partial.

(** the five are the only ones: each other flag makes a difference for some domain *)
Definition with_flag (flag rest : string) : string := "(define (domain d) (:requirements " ++ flag ++ ")" ++ rest ++ ")".
Definition text_needing (r : req) : string :=
  match r with
  | TYPING => "(:types a - b)"
  | DIS_PRECONDITION | ADL => "(:action a :parameters () :precondition (or (p)) :effect (p))"
  | UNIVERSAL_PRECONDITION | QUANTIFIED_PRECONDITION => "(:action a :parameters () :precondition (forall (?x) (p ?x)) :effect (p))"
  | EXISTENTIAL_PRECONDITION => "(:action a :parameters () :precondition (exists (?x) (p ?x)) :effect (p))"
  | EQUALITY => "(:constants c) (:action a :parameters () :precondition (= c c) :effect (p))"
  | NON_DETERMINISTIC => "(:action a :parameters () :precondition (p) :effect (oneof (p) (q)))"
  | FLUENTS | NUMERIC_FLUENTS => "(:functions (f ?x))"
  | ACTION_COSTS => "(:functions (total-cost) - number)"
  | _ => ""
  end.
Theorem C63_used : forall r, ~ unused_flag r ->
  (exists d, parse_domain_fresh (with_flag (req_str r) (text_needing r)) = Ok d) /\
  (exists e, parse_domain_fresh (with_flag ":strips" (text_needing r)) = Err e).
Proof.
  intros r U. destruct r; try (exfalso; apply U; unfold unused_flag; simpl; tauto);
    (split; eexists; vm_compute; reflexivity).
Qed.
Print Assumptions C63_used.

(** the hypotheses are met, both by a text that is accepted and by one that is not *)
Definition domain_with (reqs rest : string) : string := "(define (domain d) " ++ reqs ++ rest ++ ")".
Definition accepted_rest : string :=
  "(:predicates (p ?x)) (:action a :parameters (?x) :precondition (not (p ?x)) :effect (when (p ?x) (not (p ?x))))".
Definition rejected_rest : string :=
  "(:predicates (p ?x)) (:action a :parameters (?x) :precondition (or (p ?x)) :effect (p ?x))".
Example C63_witness : forall rest, In rest [accepted_rest; rejected_rest] ->
  exists l, other_sections l /\ same_used_flags [STRIPS] [NEG_PRECONDITION; CONDITIONAL_EFFECTS] /\
    domain_text (domain_with "(:requirements :strips)" rest) "d" (declared_sx [STRIPS] ++ l) /\
    domain_text (domain_with "(:requirements :negative-preconditions :conditional-effects)" rest) "d"
                (declared_sx [NEG_PRECONDITION; CONDITIONAL_EFFECTS] ++ l).
Proof.
  intros rest H. exists (match read_text (domain_with "" rest) with Some [SList (_ :: _ :: l)] => l | _ => [] end).
  split; [|split].
  - unfold other_sections. intros b I. destruct H as [<-|[<-|[]]]; vm_compute in I; repeat destruct I as [I|I]; try discriminate; contradiction.
  - intros r U. unfold unused_flag in U. simpl in *. intuition.
  - destruct H as [<-|[<-|[]]]; split; vm_compute; reflexivity.
Qed.
Example C63_witness_accepted : exists d, parse_domain_fresh (domain_with "(:requirements :strips)" accepted_rest) = Ok d.
Proof. eexists. vm_compute. reflexivity. Qed.
Example C63_witness_rejected :
  parse_domain_fresh (domain_with "(:requirements :strips)" rejected_rest) = Err (PDDLMissingRequirementError DIS_PRECONDITION).
Proof. vm_compute. reflexivity. Qed.
