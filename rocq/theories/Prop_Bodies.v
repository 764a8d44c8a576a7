(** C14 for texts: what the parser does with actions that have no precondition or no effect. *)
From Coq Require Import String List Bool.
From Verif Require Import Py Names Reqs Logic Validation Core Lexer TypedList UpdateTags Parser.
From Verif Require Import Sem Spec Spec_Parse Spec_Action.
From Verif Require Import Domain_facts Action_facts.
Import ListNotations.
Open Scope string_scope.
Open Scope list_scope.

(** the grammar of the project makes both parts optional (grammar.lark:25) *)
Inductive optional_part (k : string) : list sexp -> Prop :=
| op_absent : optional_part k []
| op_present x : optional_part k [SAtom (TKw k); x].

(** in every accepted text every action has both parts, in this order *)
Theorem C14_text_compulsory : forall s n sections d l,
  domain_text s n sections -> parse_domain_fresh s = Ok d -> In (section_sx ":action" l) sections ->
  exists an ps x y, l = [name_sx an; SAtom (TKw ":parameters"); SList ps;
                         SAtom (TKw ":precondition"); x; SAtom (TKw ":effect"); y].
Proof.
  intros s n sections d l T P B. unfold parse_domain_fresh in P.
  destruct (parse_domain s init_dstate) as [st' r] eqn:E. cbn [snd] in P. subst r.
  destruct (parsed_actions _ _ _ _ _ _ T E) as [_ A2]. destruct (A2 _ B) as (s1 & s2 & a & D & _).
  apply action_def_full in D as (ps' & x & y & p & e & Q & _). unfold name_sx. eauto.
Qed.
Print Assumptions C14_text_compulsory.

(** so a text with an action whose precondition or effect is left out is never accepted *)
Theorem C14_text_parts_needed : forall s n sections d an ps pre eff,
  domain_text s n sections -> parse_domain_fresh s = Ok d ->
  optional_part ":precondition" pre -> optional_part ":effect" eff ->
  In (section_sx ":action" (name_sx an :: SAtom (TKw ":parameters") :: SList ps :: pre ++ eff)) sections ->
  pre <> [] /\ eff <> [].
Proof.
  intros s n sections d an ps pre eff T P O1 O2 B. destruct (C14_text_compulsory _ _ _ _ _ T P B) as (an' & ps' & x & y & Q).
  injection Q as _ _ Q. destruct O1, O2; try discriminate Q; split; discriminate.
Qed.
Print Assumptions C14_text_parts_needed.

(** the kind of error: TypeError, whatever the parts that are there are *)
Theorem C14_action_error : forall an ps pre eff st st' st1 vars,
  optional_part ":precondition" pre -> optional_part ":effect" eff -> pre = [] \/ eff = [] ->
  action_parameters ps st = (st1, Ok vars) ->
  (forall x, pre = [SAtom (TKw ":precondition"); x] -> exists f, emptyor_pregd (domain_ctx st1) x = Ok f) ->
  (forall y, eff = [SAtom (TKw ":effect"); y] -> exists f, emptyor_effect (domain_ctx st1) y = Ok f) ->
  forall r, action_def (name_sx an :: SAtom (TKw ":parameters") :: SList ps :: pre ++ eff) st = (st', r) -> r = Err TypeError.
Proof.
  intros an ps pre eff st st' st1 vars O1 O2 N V P1 P2 r H. cbn in H. unfold bindM in H. rewrite V in H. unfold reads in H.
  assert (Q : action_body (pre ++ eff) st1 = Err TypeError).
  { destruct O1 as [|x], O2 as [|y]; cbn; try reflexivity.
    - destruct (P2 y eq_refl) as (f & ->). reflexivity.
    - destruct (P1 x eq_refl) as (f & ->). reflexivity.
    - destruct N; discriminate. }
  rewrite Q in H. now injection H.
Qed.
Print Assumptions C14_action_error.

Definition body_text (b : string) : string :=
  "(define (domain d) (:predicates (p)) (:action go :parameters () " +++ b +++ "))".
Example C14_text_ex :
  parse_domain_fresh (body_text ":precondition (p)") = Err TypeError
  /\ parse_domain_fresh (body_text ":effect (p)") = Err TypeError
  /\ parse_domain_fresh (body_text "") = Err TypeError
  /\ exists d n sections l, parse_domain_fresh (body_text ":precondition (p) :effect (not (p))") = Ok d
     /\ domain_text (body_text ":precondition (p) :effect (not (p))") n sections /\ In (section_sx ":action" l) sections.
Proof.
  repeat (split; [vm_compute; reflexivity|]). do 4 eexists. split; [vm_compute; reflexivity|]. split; [vm_compute; reflexivity|].
  right. left. reflexivity.
Qed.
