(** C34: reusing a parser object. *)
From Coq Require Import String List Bool.
From Verif Require Import Py Names Reqs Logic Validation Core Lexer TypedList UpdateTags Parser.
From Verif Require Import Spec_Parse Py_facts Domain_facts Reuse_facts.
Import ListNotations.
Open Scope string_scope.
Open Scope list_scope.

(** * C34  A parser object can be reused *)

(** A text that has :requirements, :constants and :predicates sections, and whose first definition
    is an action: whatever the attributes of the parser are, if its types are not set, the result is
    that of a new parser.  (The attributes are arbitrary here because Parser.v does not say what they
    are after a syntax error: the methods called for the part in front of the error have set them.) *)
Theorem C34_partial :
  forall st s n rs ty cs ps fs defs,
    s_types st = None ->
    domain_text s n (section_sx ":requirements" rs :: opt_section ":types" ty
                     ++ section_sx ":constants" cs :: section_sx ":predicates" ps
                     :: opt_section ":functions" fs ++ defs) ->
    starts_with_action defs ->
    snd (parse_domain s st) = parse_domain_fresh s.
Proof.
  intros st s n rs ty cs ps fs defs T Tx S. apply parse_domain_same; [exact T|].
  intros n' l0 Tx'. assert (l0 = section_sx ":requirements" rs :: opt_section ":types" ty
                     ++ section_sx ":constants" cs :: section_sx ":predicates" ps
                     :: opt_section ":functions" fs ++ defs).
  { unfold domain_text in *. rewrite Tx in Tx'. injection Tx' as _ ->. reflexivity. }
  subst l0. destruct (full_text_given rs ty cs ps fs defs S) as (R & C & P & D).
  split; [now left|]. split; [now left|]. split; [now left|]. rewrite D.
  now apply starts_not_derived.
Qed.
Print Assumptions C34_partial.
(** ... in particular after any history of calls that all succeeded *)
Theorem C34_successes_partial :
  forall h s n rs ty cs ps fs defs,
    all_succeed h init_dstate ->
    domain_text s n (section_sx ":requirements" rs :: opt_section ":types" ty
                     ++ section_sx ":constants" cs :: section_sx ":predicates" ps
                     :: opt_section ":functions" fs ++ defs) ->
    starts_with_action defs ->
    snd (parse_domain s (after_calls h init_dstate)) = parse_domain_fresh s.
Proof. intros. eapply C34_partial; eauto. now apply all_succeed_types. Qed.
Print Assumptions C34_successes_partial.
(** a problem parser, for texts with an :objects section *)
Theorem C34_problems_partial :
  forall s objs,
    (forall n d l0, problem_text s n d l0 ->
       exists rs os rest, l0 = opt_section ":requirements" rs ++ section_sx ":objects" os :: rest) ->
    parse_problem_from objs s = parse_problem s.
Proof.
  intros s objs H. apply parse_problem_same. intros n d l0 T.
  destruct (H n d l0 T) as (rs & os & rest & ->). destruct rs; reflexivity.
Qed.
Print Assumptions C34_problems_partial.

(** false in general: a call that fails after its :types section makes the next one fail; the
    requirements and the constants of an earlier text stay in force *)
Definition plain_text : string := "(define (domain d) (:types a b))".
Definition failing_text : string := "(define (domain d) (:types a) (:action x :parameters ()))".
Definition adl_text : string := "(define (domain d) (:requirements :adl) (:constants k) (:predicates (p ?x)))".
Definition or_text : string :=
  "(define (domain d) (:predicates (p ?x)) (:action x :parameters () :precondition (or (p k)) :effect (p k)))".
Theorem C34_refuted :
  (exists d, parse_domain_fresh plain_text = Ok d)
  /\ snd (parse_domain plain_text (after_calls [failing_text] init_dstate)) = Err AssertionError
  /\ (exists e, parse_domain_fresh or_text = Err e)
  /\ (exists d, snd (parse_domain or_text (after_calls [adl_text] init_dstate)) = Ok d).
Proof.
  split; [eexists; vm_compute; reflexivity|]. split; [vm_compute; reflexivity|].
  split; eexists; vm_compute; reflexivity.
Qed.
Print Assumptions C34_refuted.

Definition full_text : string :=
  "(define (domain d) (:requirements :strips) (:constants k) (:predicates (p ?x))
     (:action x :parameters (?y) :precondition (p ?y) :effect (p k)))".
Example C34_witness :
  all_succeed [adl_text; full_text] init_dstate
  /\ (exists rs cs ps defs, domain_text full_text "d" (section_sx ":requirements" rs
        :: opt_section ":types" None ++ section_sx ":constants" cs :: section_sx ":predicates" ps
        :: opt_section ":functions" None ++ defs) /\ starts_with_action defs /\ defs <> [])
  /\ exists d, parse_domain_fresh full_text = Ok d.
Proof.
  split; [|split].
  - cbn [all_succeed]. split; [eexists; vm_compute; reflexivity|].
    split; [eexists; vm_compute; reflexivity|exact I].
  - do 4 eexists. split; [vm_compute; reflexivity|]. split; [|discriminate].
    eexists. unfold section_sx. reflexivity.
  - eexists. vm_compute. reflexivity.
Qed.
