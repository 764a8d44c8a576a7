(** Model of pddl/custom_types.py, the keyword table of pddl/parser/symbols.py and
    RegexConstrainedString of pddl/helpers/base.py. *)
From Coq Require Import String Ascii List Bool NArith.
From Verif Require Import Py.
Import ListNotations.
Open Scope string_scope.
Open Scope list_scope.

(** parser/symbols.py:22-71 Symbols values, :74 ALL_SYMBOLS *)
Definition all_symbols : list string :=
  ["("; ")"; "-"; "="; ":action"; "and"; ":constants"; "define"; ":derived"; "domain";
   ":domain"; ":effect"; "either"; "exists"; "forall"; ":goal"; "imply"; ":init"; "not";
   "object"; ":objects"; "oneof"; "or"; ":parameters"; ":precondition"; ":predicates";
   "problem"; ":requirements"; ":types"; ":metric"; "when"; ">="; ">"; "<="; "<"; "-"; "+";
   "*"; "/"; "assign"; "scale-up"; "scale-down"; "increase"; "decrease"; "maximize";
   "minimize"; "total-cost"].

(** [A-Za-z] in custom_types.py:30 *)
Definition is_alpha (c : ascii) : bool := in_range 65 90 c || in_range 97 122 c.
(** [0-9] in custom_types.py:30 *)
Definition is_digit (c : ascii) : bool := in_range 48 57 c.
(** [-_A-Za-z0-9] *)
Definition is_name_char (c : ascii) : bool :=
  is_alpha c || is_digit c || (code c =? 45)%N || (code c =? 95)%N.

(** the star of the regular expression in custom_types.py:30 *)
Fixpoint all_chars (p : ascii -> bool) (s : string) : bool :=
  match s with "" => true | String c r => p c && all_chars p r end.

(** custom_types.py:30 name.REGEX.fullmatch *)
Definition name_regex (s : string) : bool :=
  match s with
  | "" => false
  | String c r => is_alpha c && all_chars is_name_char r
  end.

(** custom_types.py:117-121 _is_a_keyword *)
Definition is_a_keyword (ignore : list string) (s : string) : bool :=
  negb (memb String.eqb s ignore) && memb String.eqb s all_symbols.

(** custom_types.py:124-133 _check_not_a_keyword *)
Definition check_not_a_keyword (ignore : list string) (s : string) : res unit :=
  if is_a_keyword ignore s then Err PDDLValidationError else Ok tt.

(** helpers/base.py:149-170 RegexConstrainedString.__init__ with custom_types.py:30.
    [name(x)] on something that is already a [name] returns it: same outcome, because a [name]
    always matches. *)
Definition mk_name (s : string) : res string :=
  if name_regex s then Ok s else Err ValueError.

(** custom_types.py:48-62 parse_name *)
Definition parse_name (s : string) : res string := check_not_a_keyword [] s ;; mk_name s.
(** custom_types.py:65-79 parse_type *)
Definition parse_type (s : string) : res string := check_not_a_keyword ["object"] s ;; mk_name s.
(** custom_types.py:82-96 parse_function *)
Definition parse_function (s : string) : res string :=
  check_not_a_keyword ["total-cost"] s ;; mk_name s.

(** custom_types.py:99-101 to_names *)
Definition to_names (l : list string) : res (list string) := mapR parse_name l.
(** custom_types.py:104-106 to_type *)
Definition to_type (l : list string) : res (list string) := mapR parse_type l.

(** custom_types.py:109-114 to_types: a dict comprehension; the empty string and None are falsy *)
Definition to_type_value (a : option string) : res (option string) :=
  match a with
  | None => Ok None
  | Some "" => Ok None
  | Some s => let* n := parse_type s in Ok (Some n)
  end.
(** custom_types.py:109-114 to_types *)
Definition to_types (d : list (string * option string)) : res (list (string * option string)) :=
  let* l := mapR (fun kv => let* k := parse_type (fst kv) in
                            let* v := to_type_value (snd kv) in Ok (k, v)) d in
  Ok (dict_of_list String.eqb l).
