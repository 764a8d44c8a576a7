(** Specification: what the sections of a domain or problem text declare (C50, C51).
    Nothing here models code. *)
From Coq Require Import String List Bool.
From Verif Require Import Py Names Reqs Logic Lexer Spec_Parse Spec_Features.
Import ListNotations.
Open Scope string_scope.
Open Scope list_scope.

(** the requirement [r] is listed *)
Definition declares_req (sections : list sexp) (r : req) : Prop :=
  exists body, In (section_sx ":requirements" body) sections /\ In (req_sx r) body.

(** the section [k] is a typed list in which [n] is followed by the types [gs] *)
Definition lists (k : string) (sections : list sexp) (n : string) (gs : list string) : Prop :=
  exists body groups tail, In (section_sx k body) sections /\ written_names body groups tail
    /\ In (n, gs) (assigned groups tail).
(** a constant or object of type [g], or untyped *)
Definition declares_name (k : string) (sections : list sexp) (n : string) (g : option string) : Prop :=
  match g with Some t => lists k sections n [t] | None => lists k sections n [] end.
(** a type below [p]; "object" is above every type *)
Definition declares_type (sections : list sexp) (t : string) (p : option string) : Prop :=
  match p with
  | Some u => lists ":types" sections t [u] /\ u <> "object"
  | None => lists ":types" sections t [] \/ lists ":types" sections t ["object"]
  end.

(** [(p ?x - t ?y)]: the predicate [p] with these variables, each with the set of its types *)
Definition variables (l : list (string * list string)) : list term :=
  map (fun p => TVar (mkVar (fst p) (snd p))) l.
Definition declares_predicate (sections : list sexp) (p : string) (l : list (string * list string)) : Prop :=
  exists body vs groups tail, In (section_sx ":predicates" body) sections
    /\ In (SList (name_sx p :: vs)) body /\ written_vars vs groups tail /\ l = assigned groups tail.
(** the same variables in the same order, with the same types *)
Definition same_variables (l m : list (string * list string)) : Prop :=
  Forall2 (fun a b => fst a = fst b /\ same_set (snd a) (snd b)) l m.

(** [(f ..) (g ..) - number (h ..)]: which functions are followed by [- number] *)
Definition is_list (s : sexp) : Prop := exists l, s = SList l.
Inductive written_functions : list sexp -> list (sexp * option string) -> Prop :=
| wf_tail tail : Forall is_list tail -> written_functions tail (map (fun s => (s, None)) tail)
| wf_group items l out : items <> [] -> Forall is_list items -> written_functions l out ->
    written_functions (items ++ dash :: name_sx "number" :: l)
                      (map (fun s => (s, Some "number")) items ++ out).
Definition declares_function (sections : list sexp) (f : string) (l : list (string * list string))
           (ty : option string) : Prop :=
  exists body out vs groups tail, In (section_sx ":functions" body) sections
    /\ written_functions body out /\ In (SList (name_sx f :: vs), ty) out
    /\ written_vars vs groups tail /\ l = assigned groups tail.
