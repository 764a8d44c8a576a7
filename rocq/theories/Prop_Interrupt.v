(** C89: a parser is used again after calls that were interrupted at any point. *)
From Coq Require Import String List Bool.
From Verif Require Import Py Names Reqs Logic Validation Core Lexer TypedList Parser Shared.
From Verif Require Import Spec_Parse Spec_Interrupt Reuse_facts Shared_facts Interrupt_facts Prop_Reuse.
Import ListNotations.
Open Scope string_scope.
Open Scope list_scope.

(** Problem parsers: after any number of calls, each interrupted at any access of the parser's attribute or
    finished, every text gives the exception of a new parser, or a problem that is == that of a new one. *)
Theorem C89_problems : forall h s,
  same_problem (parse_problem_from (after_interrupted_problems h []) s) (parse_problem s).
Proof. intros h s. apply (parse_agree (after_interrupted_problems h []) s). apply sane_after. constructor. Qed.
(** In particular after calls that finished (C34): the objects left by any earlier text. *)
Theorem C34_problems_equal : forall l d s, objects_section l = Ok d ->
  same_problem (parse_problem_from d s) (parse_problem s).
Proof.
  intros l d s H. apply (parse_agree d s). apply Format_facts.objects_ok in H as [_ H]. eapply Forall_impl; [|exact H]. cbn. tauto.
Qed.

(** Domain parsers: the property fails.  A call that is interrupted after :types makes the parser reject
    the same text. *)
Theorem C89_domain_refuted : ~ (forall h s, snd (parse_domain s (after_interrupted h init_dstate)) = parse_domain_fresh s).
Proof.
  intros C. specialize (C [("(define (domain a) (:requirements :typing) (:types t))", 2)] "(define (domain a) (:requirements :typing) (:types t))"). vm_compute in C. discriminate.
Qed.
(** Exactly which interruptions do this: the call of an accepted text with :types, from a parser without
    types, leaves a usable parser (one that accepts the small domain [probe]) iff it is interrupted before
    the callback for :types (the second one if there are requirements, else the first) or has finished. *)
Definition probe := "(define (domain probe) (:requirements :typing) (:types t))".
Theorem C89_domain_exact : forall st s n rs ty rest d k,
  s_types st = None -> domain_text s n (opt_section ":requirements" rs ++ section_sx ":types" ty :: rest) ->
  snd (parse_domain s st) = Ok d ->
  let '(after, remaining) := interrupted k (parse_prog s) st in
  (exists d', snd (parse_domain probe after) = Ok d')
  <-> k <= match rs with Some _ => 1 | None => 0 end \/ exists r, remaining = Done r.
Proof.
  intros st s n rs ty rest d k T X H.
  assert (P : forall st, (exists d', snd (parse_domain probe st) = Ok d') <-> s_types st = None).
  { clear. intros [c p q e t]. cbn [s_types]. destruct t as [t|]; vm_compute; split; try discriminate; try (intros [? ?]; discriminate); eauto. }
  assert (H' : exists st', parse_domain s st = (st', Ok d)) by (destruct (parse_domain s st); cbn in H; subst; eauto). destruct H' as [st' H'].
  pose proof (success_types _ _ _ _ H') as E'. rewrite <- alone_parse in H'.
  destruct (interrupted k (parse_prog s) st) as [after remaining] eqn:I. rewrite P.
  assert (Q : parse_prog s = domain_prog n (opt_section ":requirements" rs ++ section_sx ":types" ty :: rest)) by (unfold parse_prog; unfold domain_text in X; rewrite X; reflexivity).
  pose proof H' as H2. rewrite Q, alone_domain in H2. destruct (domain_points n rs ty rest st st' d T H2 k) as [L U]. rewrite <- Q, I in L, U. cbn [fst snd] in L, U.
  split.
  - intros N. destruct (Compare_dec.le_lt_dec k match rs with Some _ => 1 | None => 0 end) as [C|C]; [now left|]. destruct (U C) as [V|V]; [now destruct (V N)|now right].
  - intros [C|[r ->]]; [auto|]. apply interrupted_done in I. rewrite I in H'. injection H' as -> _. exact E'.
Qed.
(** From then on it rejects every text with a :types section. *)
Theorem C89_domain_stuck : forall st s n rs ty rest d,
  s_types st <> None -> domain_text s n (opt_section ":requirements" rs ++ section_sx ":types" ty :: rest) ->
  snd (parse_domain s st) <> Ok d.
Proof.
  intros st s n rs ty rest d T X. unfold parse_domain. unfold domain_text in X. rewrite X. cbn [parse_domain_sexp name_sx String.eqb Ascii.eqb Bool.eqb andb].
  destruct (domain_rule n _ st) as [st' r] eqn:E. cbn [snd]. intros ->. exact (stuck n rs ty rest st st' d T E).
Qed.
(** After interrupted calls of texts without :types, and calls that returned a domain, in any order: a
    text with :requirements, :constants and :predicates sections, whose first definition is an action, gives
    what a new parser gives.  Missing: other histories and other texts, for which the claim is false
    (above, and C34_refuted). *)
Theorem C89_domain_partial : forall h s n rs ty cs ps fs defs,
  harmless h init_dstate ->
  domain_text s n (section_sx ":requirements" rs :: opt_section ":types" ty
                   ++ section_sx ":constants" cs :: section_sx ":predicates" ps
                   :: opt_section ":functions" fs ++ defs) ->
  starts_with_action defs ->
  snd (parse_domain s (after_interrupted h init_dstate)) = parse_domain_fresh s.
Proof. intros h s n rs ty cs ps fs defs H T S. eapply C34_partial; [|exact T|exact S]. apply (harmless_idle h init_dstate H). reflexivity. Qed.

Definition small_text := "(define (domain b) (:predicates (p ?x)) (:action m :parameters (?x) :precondition (p ?x) :effect (p ?x)))".
Definition full_text := "(define (domain a) (:requirements :typing) (:types t) (:constants c - t) (:predicates (p ?x - t)) (:action m :parameters (?x - t) :precondition (p ?x) :effect (p c)))".
Example C89_ex_domain : (exists d, parse_domain_fresh full_text = Ok d) /\ harmless [(small_text, 2); (full_text, 100); (small_text, 1)] init_dstate
  /\ exists n rs ty cs ps fs defs, domain_text full_text n (section_sx ":requirements" rs :: opt_section ":types" ty
                   ++ section_sx ":constants" cs :: section_sx ":predicates" ps
                   :: opt_section ":functions" fs ++ defs) /\ starts_with_action defs.
Proof.
  assert (N : no_types small_text). { intros n rs ty rest H. unfold domain_text in H. destruct rs; vm_compute in H; discriminate. }
  split; [eexists; vm_compute; reflexivity|]. split.
  - split; [now left|]. split; [right; do 2 eexists; vm_compute; reflexivity|]. split; [now left|exact I].
  - eexists _, _, (Some _), _, _, None, [_]. split; [vm_compute; reflexivity|]. eexists. reflexivity.
Qed.
Example C89_ex_stuck : s_types (after_interrupted [(full_text, 3)] init_dstate) <> None.
Proof. vm_compute. discriminate. Qed.
Example C89_ex_exact : map (fun k => match snd (parse_domain probe (fst (interrupted k (parse_prog full_text) init_dstate))) with Ok _ => true | Err _ => false end) [0; 1; 2; 3; 6; 7]
  = [true; true; false; false; false; true] /\ exists n rs ty rest, domain_text full_text n (opt_section ":requirements" (Some rs) ++ section_sx ":types" ty :: rest).
Proof. split; [vm_compute; reflexivity|]. do 4 eexists. vm_compute. reflexivity. Qed.
(** an interrupted call that leaves the types of its objects to a text without :objects *)
Example C89_ex_problems : let h := [("(define (problem p) (:domain d) (:objects a - t) (:init) (:goal (q)))", 1)] in
  let s := "(define (problem p) (:domain d) (:init (q a)) (:goal (q a)))" in
  after_interrupted_problems h [] = [("a", ("a", Some "t"))]
  /\ exists p p0, parse_problem_from (after_interrupted_problems h []) s = Ok p /\ parse_problem s = Ok p0 /\ p <> p0.
Proof. vm_compute. split; [reflexivity|]. do 2 eexists. split; [reflexivity|]. split; [reflexivity|discriminate]. Qed.

Print Assumptions C89_problems.
Print Assumptions C34_problems_equal.
Print Assumptions C89_domain_refuted.
Print Assumptions C89_domain_exact.
Print Assumptions C89_domain_stuck.
Print Assumptions C89_domain_partial.
