(** Specifications for the parsing properties. *)
From Coq Require Import String List Bool.
From Verif Require Import Py Names Logic Names_facts TypedList.
Import ListNotations.
Open Scope string_scope.
Open Scope list_scope.

(** ** Typed lists: x1 .. xn - t  y1 .. ym - u  z1 .. zk *)

(** the token list: groups of items, each followed by "-" and its types, then untyped items *)
Definition typed_tokens {A} (groups : list (list A * list string)) (tail : list A)
  : list (titem A) :=
  flat_map (fun g => map IItem (fst g) ++ [ISep; ITypes (snd g)]) groups ++ map IItem tail.

(** what it means: the items in order, each with the set of types of its group *)
Definition assigned {A} (groups : list (list A * list string)) (tail : list A)
  : list (A * list string) :=
  flat_map (fun g => map (fun a => (a, dedup String.eqb (snd g))) (fst g)) groups
  ++ map (fun a => (a, [])) tail.

Definition same_set (l m : list string) : Prop := forall x, In x l <-> In x m.

(** repeated items repeat the same types *)
Definition repeats_agree {A} (l : list (A * list string)) : Prop :=
  forall a gs hs, In (a, gs) l -> In (a, hs) l -> same_set gs hs.

Definition legal_items (l : list (string * list string)) : Prop :=
  forall a gs, In (a, gs) l -> legal_name a /\ Forall legal_type gs.

(** ** The concrete syntax of typed lists (grammar.lark:94-103), as trees of tokens *)
From Verif Require Import Lexer.

Definition name_sx (n : string) : sexp := SAtom (TWord n).
Definition var_sx (n : string) : list sexp := [SAtom QMARK; SAtom (TWord n)].
Definition dash : sexp := SAtom (TOp "-").

(** t, or (either t1 .. tn) *)
Definition written_type (s : sexp) (gs : list string) : Prop :=
  (exists g, s = name_sx g /\ gs = [g])
  \/ (gs <> [] /\ s = SList (name_sx "either" :: map name_sx gs)).

(** ?x1 .. ?xn - t  ?y1 .. ?ym - u  ?z1 .. ?zk *)
Inductive written_vars : list sexp -> list (list string * list string) -> list string -> Prop :=
| wv_tail tail : written_vars (flat_map var_sx tail) [] tail
| wv_group items t gs l groups tail :
    items <> [] -> written_type t gs -> written_vars l groups tail ->
    written_vars (flat_map var_sx items ++ dash :: t :: l) ((items, gs) :: groups) tail.

(** x1 .. xn - t  y1 .. ym - u  z1 .. zk, where y1 and z1 are not the word "object" *)
Inductive written_names : list sexp -> list (list string * list string) -> list string -> Prop :=
| wn_tail tail : written_names (map name_sx tail) [] tail
| wn_group items g l groups tail :
    items <> [] -> (forall r, l <> name_sx "object" :: r) -> written_names l groups tail ->
    written_names (map name_sx items ++ dash :: name_sx g :: l) ((items, [g]) :: groups) tail.

(** a list of names with a repeated name; a list of variables that repeats one with other types *)
Definition repeats_a_name (l : list sexp) : Prop :=
  exists groups tail, written_names l groups tail /\ legal_items (assigned groups tail)
                      /\ ~ NoDup (map fst (assigned groups tail)).
Definition repeats_inconsistently (l : list sexp) : Prop :=
  exists groups tail, written_vars l groups tail /\ legal_items (assigned groups tail)
                      /\ ~ repeats_agree (assigned groups tail).

(** the text is a domain named n with these sections; a problem named n of domain d *)
Definition domain_text (s n : string) (sections : list sexp) : Prop :=
  read_text s = Some [SList (name_sx "define" :: SList [name_sx "domain"; name_sx n] :: sections)].
Definition problem_text (s n d : string) (sections : list sexp) : Prop :=
  read_text s = Some [SList (name_sx "define" :: SList [name_sx "problem"; name_sx n]
                             :: SList [SAtom (TKw ":domain"); name_sx d] :: sections)].
Definition section_sx (k : string) (l : list sexp) : sexp := SList (SAtom (TKw k) :: l).
Definition opt_section (k : string) (o : option (list sexp)) : list sexp :=
  match o with Some l => [section_sx k l] | None => [] end.
(** a list of definitions that begins with an action, or is empty *)
Definition starts_with_action (defs : list sexp) : Prop :=
  match defs with [] => True | x :: _ => exists body, x = section_sx ":action" body end.
