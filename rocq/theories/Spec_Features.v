(** Specification for C35: which requirement a written condition or effect needs. *)
From Coq Require Import String List Bool.
From Verif Require Import Reqs Lexer Spec_Reqs Spec_Parse.
Import ListNotations.
Open Scope string_scope.
Open Scope list_scope.

(** [cond_needs x rs]: the condition written [x] uses, at its top or inside, a feature for which
    one of the requirements [rs] has to be declared or implied *)
Inductive cond_needs : sexp -> list req -> Prop :=
| cn_or args : cond_needs (SList (name_sx "or" :: args)) [DIS_PRECONDITION; ADL]
| cn_imply x y : cond_needs (SList [name_sx "imply"; x; y]) [DIS_PRECONDITION; ADL]
| cn_exists vs x : cond_needs (SList [name_sx "exists"; SList vs; x])
                     [EXISTENTIAL_PRECONDITION; QUANTIFIED_PRECONDITION; ADL]
| cn_forall vs x : cond_needs (SList [name_sx "forall"; SList vs; x])
                     [UNIVERSAL_PRECONDITION; QUANTIFIED_PRECONDITION; ADL]
  (* = between terms: the first operand is a constant or a variable *)
| cn_eq_const n l : cond_needs (SList (SAtom (TOp "=") :: name_sx n :: l)) [EQUALITY]
| cn_eq_var l : cond_needs (SList (SAtom (TOp "=") :: SAtom QMARK :: l)) [EQUALITY]
| cn_part w args x rs : In w ["and"; "or"; "not"; "imply"] -> In x args -> cond_needs x rs ->
    cond_needs (SList (name_sx w :: args)) rs
| cn_body w vs x rs : In w ["exists"; "forall"] -> cond_needs x rs ->
    cond_needs (SList [name_sx w; SList vs; x]) rs.

(** the same for effects *)
Inductive eff_needs : sexp -> list req -> Prop :=
| en_oneof args : eff_needs (SList (name_sx "oneof" :: args)) [NON_DETERMINISTIC]
| en_eq_const n l : eff_needs (SList (SAtom (TOp "=") :: name_sx n :: l)) [EQUALITY]
| en_eq_var l : eff_needs (SList (SAtom (TOp "=") :: SAtom QMARK :: l)) [EQUALITY]
| en_part w args x rs : In w ["and"; "oneof"; "not"] -> In x args -> eff_needs x rs ->
    eff_needs (SList (name_sx w :: args)) rs
| en_body vs x rs : eff_needs x rs -> eff_needs (SList [name_sx "forall"; SList vs; x]) rs
| en_when_cond x y rs : cond_needs x rs -> eff_needs (SList [name_sx "when"; x; y]) rs
| en_when_eff x y rs : eff_needs y rs -> eff_needs (SList [name_sx "when"; x; y]) rs.

(** one of [rs] is declared or implied *)
Definition met (declared rs : list req) : Prop := exists r, In r rs /\ in_force declared r.

(** a definition of the domain: an action or a derived predicate *)
Inductive def_needs : sexp -> list req -> Prop :=
| dn_pre n ps x y rs : cond_needs x rs ->
    def_needs (section_sx ":action" [name_sx n; SAtom (TKw ":parameters"); SList ps;
                                     SAtom (TKw ":precondition"); x; SAtom (TKw ":effect"); y]) rs
| dn_eff n ps x y rs : eff_needs y rs ->
    def_needs (section_sx ":action" [name_sx n; SAtom (TKw ":parameters"); SList ps;
                                     SAtom (TKw ":precondition"); x; SAtom (TKw ":effect"); y]) rs
  (* an action with only one of the two *)
| dn_only_pre n ps x rs : cond_needs x rs ->
    def_needs (section_sx ":action" [name_sx n; SAtom (TKw ":parameters"); SList ps;
                                     SAtom (TKw ":precondition"); x]) rs
| dn_only_eff n ps y rs : eff_needs y rs ->
    def_needs (section_sx ":action" [name_sx n; SAtom (TKw ":parameters"); SList ps;
                                     SAtom (TKw ":effect"); y]) rs
| dn_derived h x rs : cond_needs x rs -> def_needs (section_sx ":derived" [h; x]) rs.

(** a section of the domain: types with a supertype, or a definition *)
Inductive section_needs : sexp -> list req -> Prop :=
| sn_types l : In dash l -> section_needs (section_sx ":types" l) [TYPING]
| sn_def x rs : def_needs x rs -> section_needs x rs.

(** the requirements section, absent when nothing is declared *)
Definition req_sx (r : req) : sexp := SAtom (TKw (req_str r)).
Definition declared_sx (rs : list req) : list sexp :=
  match rs with [] => [] | _ => [section_sx ":requirements" (map req_sx rs)] end.
(** the other sections *)
Definition other_sections (l : list sexp) : Prop := forall b, ~ In (section_sx ":requirements" b) l.
