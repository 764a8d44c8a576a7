(** Specification for C64: the definitions of a domain text and what each is read in. *)
From Coq Require Import String List Bool.
From Verif Require Import Py Logic Validation Core Lexer Spec_Parse.
Import ListNotations.
Open Scope string_scope.
Open Scope list_scope.

(** the sections in front of the definitions; each may be missing *)
Definition declarations (reqs types constants predicates functions : option (list sexp)) : list sexp :=
  opt_section ":requirements" reqs ++ opt_section ":types" types ++ opt_section ":constants" constants
  ++ opt_section ":predicates" predicates ++ opt_section ":functions" functions.

(** the definitions: actions and derived predicates *)
Definition action_sect (x : sexp) : Prop := exists body, x = section_sx ":action" body.
Definition derived_sect (x : sexp) : Prop := exists body, x = section_sx ":derived" body.
Definition definition (x : sexp) : Prop := action_sect x \/ derived_sect x.

(** [placed p defs]: some definition of [defs] is that of [p]; an action by itself, a derived
    predicate together with the last action in front of it, if any *)
Inductive place : Type := Act (x : sexp) | Der (last : option sexp) (x : sexp).
Inductive last_action : list sexp -> option sexp -> Prop :=
| la_none l : Forall derived_sect l -> last_action l None
| la_some l x r : action_sect x -> Forall derived_sect r -> last_action (l ++ x :: r) (Some x).
Inductive placed : place -> list sexp -> Prop :=
| p_act x defs : In x defs -> action_sect x -> placed (Act x) defs
| p_der l x r o : derived_sect x -> last_action l o -> placed (Der o x) (l ++ x :: r).

(** membership in Python's sets *)
Definition has_action (d : domain) (a : action) : Prop := memb action_eqb a (d_actions d) = true.
Definition has_derived (d : domain) (p : derived) : Prop := memb derived_eqb p (d_derived d) = true.
(** equal in everything that is declared in front of the definitions *)
Definition same_declarations (d d' : domain) : Prop :=
  d_name d' = d_name d /\ d_reqs d' = d_reqs d /\ d_types d' = d_types d /\
  d_constants d' = d_constants d /\ d_predicates d' = d_predicates d /\ d_functions d' = d_functions d.
