(** Specification: what a printed :types section says (C26).  Nothing here models code. *)
From Coq Require Import String List Relations.
From Verif Require Import Py Validation.
Import ListNotations.
Open Scope string_scope.
Open Scope list_scope.

(** [t] has the supertype [p] *)
Definition parent_of (d : types_dict) (p t : string) : Prop := In (t, Some p) d.
Definition no_type_cycle (d : types_dict) : Prop := forall t, ~ clos_trans _ (parent_of d) t t.

(** a line of the section: types and the supertype they are given *)
Record type_line : Type := mkLine { tl_types : list string; tl_parent : string }.
Definition line_text (l : type_line) : string :=
  "    " +++ join " " (tl_types l) +++ " - " +++ tl_parent l +++ nl.

(** the section as a list of lines *)
Definition types_text (s : string) (lines : list type_line) : Prop :=
  s = "(:types" +++ nl +++ String.concat "" (map line_text lines) +++ ")" +++ nl.

(** the supertype under which a type must be listed *)
Definition listed_parent (o : option string) : string :=
  match o with Some p => p | None => "object" end.

(** [t] is listed in exactly one place, in the line of [p], and lines before it list [p] *)
Definition listed_once (lines : list type_line) (t p : string) : Prop :=
  exists before xs ys after,
    lines = before ++ mkLine (xs ++ t :: ys) p :: after
    /\ ~ In t (xs ++ ys)
    /\ (forall l, In l (before ++ after) -> ~ In t (tl_types l))
    /\ (p <> "object" -> exists l, In l before /\ In p (tl_types l)).

(** * Printed lists of variables *)
From Verif Require Import Logic Lexer Parser Spec_Parse Names_facts.

(** a variable that can be made: a legal name, and a set of legal types *)
Definition legal_var (v : var) : Prop :=
  legal_name (v_name v) /\ Forall legal_type (v_tags v) /\ NoDup (v_tags v).
Definition same_var (v w : var) : Prop := v_name v = v_name w /\ same_set (v_tags v) (v_tags w).

(** the variables, the predicate and the function a text declares *)
Definition variables_in (text : string) : res (list var) :=
  match read_text text with
  | Some l => let* tl := typed_list_variable l in mk_vars tl
  | None => Err LarkSyntaxError
  end.
Definition predicate_in (text : string) : res atom :=
  match read_text text with
  | Some [s] => atomic_formula_skeleton s
  | _ => Err LarkSyntaxError
  end.
Definition function_in (text : string) : res atom :=
  match read_text text with
  | Some [s] => atomic_function_skeleton s
  | _ => Err LarkSyntaxError
  end.

(** no untyped variable is followed by a typed one *)
Definition untyped_last (vs : list var) : Prop :=
  exists a b, vs = a ++ b /\ Forall (fun v => v_tags v <> []) a /\ Forall (fun v => v_tags v = []) b.
(** a variable that occurs twice has the same types *)
Definition repeats_same (vs : list var) : Prop :=
  forall v w, In v vs -> In w vs -> v_name v = v_name w -> same_set (v_tags v) (v_tags w).
Definition one_type (v : var) : Prop := (List.length (v_tags v) <= 1)%nat.
