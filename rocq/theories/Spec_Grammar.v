(** Specification: the grammar file, rule by rule, and what it means for a text to be derived from
    one of its rules.  Nothing here uses the model of the parser. *)
From Coq Require Import String Ascii List Bool.
Import ListNotations.
Open Scope string_scope.
Open Scope list_scope.

(** * Grammars *)
Inductive sym : Type :=
| T (name : string)          (* a terminal *)
| N (name : string)          (* a rule *)
| Seq (l : list sym)         (* a b c *)
| Alt (l : list sym)         (* a | b | c *)
| Opt (e : sym)              (* [a] *)
| Star (e : sym)             (* a* *)
| Plus (e : sym).            (* a+ *)

(** the patterns of the terminals *)
Inductive pattern : Type :=
| Lit (s : string)           (* "..." *)
| Name                       (* /[a-zA-Z][a-zA-Z0-9-_]*/ *)
| Number.                    (* /[0-9]+(\.[0-9]+)*/ *)

Definition between (a b c : ascii) : Prop := nat_of_ascii a <= nat_of_ascii c <= nat_of_ascii b.
Definition letter (c : ascii) : Prop := between "a" "z" c \/ between "A" "Z" c.
Definition digit (c : ascii) : Prop := between "0" "9" c.
Definition name_char (c : ascii) : Prop := letter c \/ digit c \/ c = "-"%char \/ c = "_"%char.
Inductive each (P : ascii -> Prop) : string -> Prop :=
| Each_nil : each P ""
| Each_cons c s : P c -> each P s -> each P (String c s).
Inductive number : string -> Prop :=
| Num_int d : each digit d -> d <> "" -> number d
| Num_dot d r : each digit d -> d <> "" -> number r -> number (d ++ "." ++ r).

Definition matches (p : pattern) (w : string) : Prop :=
  match p with
  | Lit s => w = s
  | Name => exists c r, w = String c r /\ letter c /\ each name_char r
  | Number => number w
  end.

(** * Derivations: the words that a part of a rule stands for *)
Section Derivations.
  (** [lexeme t w]: the word [w] can be the terminal [t] *)
  Variables (lexeme : string -> string -> Prop) (rules : list (string * sym)).
  Inductive derives : sym -> list string -> Prop :=
  | D_T t w : lexeme t w -> derives (T t) [w]
  | D_N n e ws : In (n, e) rules -> derives e ws -> derives (N n) ws
  | D_Seq_nil : derives (Seq []) []
  | D_Seq_cons e l us ws : derives e us -> derives (Seq l) ws -> derives (Seq (e :: l)) (us ++ ws)
  | D_Alt e l ws : In e l -> derives e ws -> derives (Alt l) ws
  | D_Opt_none e : derives (Opt e) []
  | D_Opt_some e ws : derives e ws -> derives (Opt e) ws
  | D_Star_nil e : derives (Star e) []
  | D_Star_cons e us ws : derives e us -> derives (Star e) ws -> derives (Star e) (us ++ ws)
  | D_Plus e us ws : derives e us -> derives (Star e) ws -> derives (Plus e) (us ++ ws).
End Derivations.

(** * grammar.lark:140-233, the terminals *)
Definition terminals : list (string * pattern) :=
  [("NAME", Name); ("NUMBER", Number); ("?", Lit "?");
   ("DOMAIN_P", Lit ":domain"); ("PROBLEM", Lit "problem"); ("OBJECTS", Lit ":objects");
   ("INIT", Lit ":init"); ("GOAL", Lit ":goal");
   ("DEFINE", Lit "define"); ("DOMAIN", Lit "domain"); ("REQUIREMENTS", Lit ":requirements");
   ("TYPES", Lit ":types"); ("CONSTANTS", Lit ":constants"); ("PREDICATES", Lit ":predicates");
   ("FUNCTIONS", Lit ":functions"); ("ACTION", Lit ":action"); ("PARAMETERS", Lit ":parameters");
   ("PRECONDITION", Lit ":precondition"); ("EFFECT", Lit ":effect"); ("DERIVED", Lit ":derived");
   ("FORALL", Lit "forall"); ("EXISTS", Lit "exists"); ("WHEN", Lit "when"); ("OBJECT", Lit "object");
   ("AND", Lit "and"); ("OR", Lit "or"); ("NOT", Lit "not"); ("IMPLY", Lit "imply");
   ("EITHER", Lit "either"); ("ONEOF", Lit "oneof"); ("EQUAL_OP", Lit "=");
   ("GREATER_EQUAL_OP", Lit ">="); ("GREATER_OP", Lit ">"); ("LESSER_EQUAL_OP", Lit "<=");
   ("LESSER_OP", Lit "<"); ("MINUS", Lit "-"); ("PLUS", Lit "+"); ("TIMES", Lit "*"); ("DIVIDE", Lit "/");
   ("METRIC", Lit ":metric"); ("ASSIGN", Lit "assign"); ("SCALE_UP", Lit "scale-up");
   ("SCALE_DOWN", Lit "scale-down"); ("INCREASE", Lit "increase"); ("DECREASE", Lit "decrease");
   ("MAXIMIZE", Lit "maximize"); ("MINIMIZE", Lit "minimize"); ("TOTAL_COST", Lit "total-cost");
   ("STRIPS", Lit ":strips"); ("TYPING", Lit ":typing"); ("EQUALITY", Lit ":equality"); ("ADL", Lit ":adl");
   ("NON_DETERMINISTIC", Lit ":non-deterministic"); ("NEG_PRECONDITION", Lit ":negative-preconditions");
   ("DIS_PRECONDITION", Lit ":disjunctive-preconditions"); ("DERIVED_PREDICATES", Lit ":derived-predicates");
   ("CONDITIONAL_EFFECTS", Lit ":conditional-effects");
   ("EXISTENTIAL_PRECONDITIONS", Lit ":existential-preconditions");
   ("UNIVERSAL_PRECONDITIONS", Lit ":universal-preconditions");
   ("QUANTIFIED_PRECONDITIONS", Lit ":quantified-preconditions");
   ("NUMERIC_FLUENTS", Lit ":numeric-fluents"); ("FLUENTS", Lit ":fluents"); ("ACTION_COSTS", Lit ":action-costs");
   ("LPAR", Lit "("); ("RPAR", Lit ")"); ("TYPE_SEP", Lit "-"); ("TYPE_NUMBER", Lit "number")].

Definition lexeme (t w : string) : Prop := exists p, In (t, p) terminals /\ matches p w.

(** * grammar.lark:1-172, the rules *)
Definition L : sym := T "LPAR".
Definition R : sym := T "RPAR".
Definition rules : list (string * sym) :=
  [("domain", Seq [L; T "DEFINE"; N "domain_def"; Opt (N "requirements"); Opt (N "types"); Opt (N "constants");
                   Opt (N "predicates"); Opt (N "functions"); Star (N "structure_def"); R]);
   ("domain_def", Seq [L; T "DOMAIN"; T "NAME"; R]);
   ("requirements", Seq [L; T "REQUIREMENTS"; Plus (N "require_key"); R]);
   ("types", Seq [L; T "TYPES"; N "typed_list_name"; R]);
   ("constants", Seq [L; T "CONSTANTS"; N "typed_list_name"; R]);
   ("predicates", Seq [L; T "PREDICATES"; Plus (N "atomic_formula_skeleton"); R]);
   ("functions", Seq [L; T "FUNCTIONS"; N "f_typed_list_atomic_function_skeleton"; R]);
   ("atomic_formula_skeleton", Seq [L; T "NAME"; N "typed_list_variable"; R]);
   ("f_typed_list_atomic_function_skeleton",
      Alt [Plus (N "atomic_function_skeleton");
           Seq [Plus (Seq [Plus (N "atomic_function_skeleton"); T "TYPE_SEP"; N "f_type_def"]);
                Star (N "atomic_function_skeleton")]]);
   ("f_type_def", T "TYPE_NUMBER");
   ("atomic_function_skeleton", Seq [L; T "NAME"; N "typed_list_variable"; R]);
   ("structure_def", Alt [N "action_def"; N "derived_predicates"]);
   ("action_def", Seq [L; T "ACTION"; T "NAME"; T "PARAMETERS"; N "action_parameters"; N "action_body_def"; R]);
   ("action_parameters", Seq [L; N "typed_list_variable"; R]);
   ("action_body_def", Seq [Opt (Seq [T "PRECONDITION"; N "emptyor_pregd"]); Opt (Seq [T "EFFECT"; N "emptyor_effect"])]);
   ("derived_predicates", Seq [L; T "DERIVED"; N "atomic_formula_skeleton"; N "gd"; R]);
   ("emptyor_pregd", Alt [Seq [L; R]; N "gd"]);
   ("gd", Alt [N "atomic_formula_term";
               Seq [L; T "OR"; Star (N "gd"); R];
               Seq [L; T "NOT"; N "gd"; R];
               Seq [L; T "AND"; Star (N "gd"); R];
               Seq [L; T "IMPLY"; N "gd"; N "gd"; R];
               Seq [L; T "EXISTS"; L; N "typed_list_variable"; R; N "gd"; R];
               Seq [L; T "FORALL"; L; N "typed_list_variable"; R; N "gd"; R];
               Seq [L; N "binary_comp"; N "f_exp"; N "f_exp"; R]]);
   ("emptyor_effect", Alt [Seq [L; R]; N "effect"]);
   ("effect", Alt [Seq [L; T "AND"; Star (N "c_effect"); R]; N "c_effect"]);
   ("c_effect", Alt [Seq [L; T "FORALL"; L; N "typed_list_variable"; R; N "effect"; R];
                     Seq [L; T "WHEN"; N "gd"; N "cond_effect"; R];
                     Seq [L; T "ONEOF"; Plus (N "effect"); R];
                     N "p_effect"]);
   ("p_effect", Alt [Seq [L; T "NOT"; N "atomic_formula_term"; R]; N "atomic_formula_term"; N "num_effect"]);
   ("cond_effect", Alt [Seq [L; T "AND"; Star (N "p_effect"); R]; N "p_effect"]);
   ("num_effect", Seq [L; N "assign_op"; N "f_head"; N "f_exp"; R]);
   ("atomic_formula_term", Alt [Seq [L; N "predicate"; Star (N "term"); R]; Seq [L; T "EQUAL_OP"; N "term"; N "term"; R]]);
   ("term", Alt [N "constant"; N "variable"]);
   ("predicate", T "NAME");
   ("constant", T "NAME");
   ("binary_comp", Alt [T "GREATER_OP"; T "LESSER_OP"; T "EQUAL_OP"; T "GREATER_EQUAL_OP"; T "LESSER_EQUAL_OP"]);
   ("binary_op", Alt [N "multi_op"; T "MINUS"; T "DIVIDE"]);
   ("multi_op", Alt [T "TIMES"; T "PLUS"]);
   ("num_literal", T "NUMBER");
   ("f_exp", Alt [N "num_literal";
                  Seq [L; N "binary_op"; N "f_exp"; N "f_exp"; R];
                  Seq [L; N "multi_op"; N "f_exp"; Plus (N "f_exp"); R];
                  Seq [L; T "MINUS"; N "f_exp"; R];
                  N "f_head"]);
   ("f_head", Alt [T "NAME"; Seq [L; T "NAME"; Star (N "term"); R]]);
   ("assign_op", Alt [T "ASSIGN"; T "SCALE_UP"; T "SCALE_DOWN"; T "INCREASE"; T "DECREASE"]);
   ("typed_list_variable",
      Alt [Star (N "variable");
           Seq [Plus (Seq [Plus (N "variable"); T "TYPE_SEP"; N "type_def"]); Star (N "variable")]]);
   ("variable", Seq [T "?"; T "NAME"]);
   ("typed_list_name",
      Alt [Star (T "NAME");
           Seq [Plus (Seq [Plus (T "NAME"); T "TYPE_SEP"; N "primitive_type"]); Star (T "NAME")]]);
   ("type_def", Alt [Seq [L; T "EITHER"; Plus (N "primitive_type"); R]; N "primitive_type"]);
   ("primitive_type", Alt [T "NAME"; T "OBJECT"]);
   ("problem", Seq [L; T "DEFINE"; N "problem_def"; N "problem_domain"; Opt (N "requirements"); Opt (N "objects");
                    N "init"; N "goal"; Opt (N "metric_spec"); R]);
   ("problem_def", Seq [L; T "PROBLEM"; T "NAME"; R]);
   ("problem_domain", Seq [L; T "DOMAIN_P"; T "NAME"; R]);
   ("objects", Seq [L; T "OBJECTS"; N "typed_list_name"; R]);
   ("init", Seq [L; T "INIT"; Star (N "init_el"); R]);
   ("init_el", Alt [N "literal_name"; Seq [L; T "EQUAL_OP"; N "basic_function_term"; N "num_literal"; R]]);
   ("literal_name", Alt [N "atomic_formula_name"; Seq [L; T "NOT"; N "atomic_formula_name"; R]]);
   ("basic_function_term", Alt [T "NAME"; Seq [L; T "NAME"; Star (T "NAME"); R]]);
   ("atomic_formula_name", Seq [L; N "predicate"; Star (T "NAME"); R]);
   ("goal", Seq [L; T "GOAL"; N "gd"; R]);
   ("metric_spec", Seq [L; T "METRIC"; N "optimization"; N "metric_f_exp"; R]);
   ("optimization", Alt [T "MAXIMIZE"; T "MINIMIZE"]);
   ("metric_f_exp", Alt [Seq [L; N "binary_op"; N "metric_f_exp"; N "metric_f_exp"; R];
                         Seq [L; N "multi_op"; N "metric_f_exp"; Plus (N "metric_f_exp"); R];
                         Seq [L; T "MINUS"; N "metric_f_exp"; R];
                         N "basic_function_term";
                         T "NUMBER"]);
   ("plan", Star (N "ground_action"));
   ("ground_action", Seq [L; N "predicate"; Star (T "NAME"); R]);
   ("require_key", Alt [T "TYPING"; T "STRIPS"; T "EQUALITY"; T "NON_DETERMINISTIC"; T "NEG_PRECONDITION";
                        T "DIS_PRECONDITION"; T "EXISTENTIAL_PRECONDITIONS"; T "UNIVERSAL_PRECONDITIONS";
                        T "QUANTIFIED_PRECONDITIONS"; T "ADL"; T "DERIVED_PREDICATES"; T "CONDITIONAL_EFFECTS";
                        T "NUMERIC_FLUENTS"; T "FLUENTS"; T "ACTION_COSTS"])].

(** * Texts: words with ignored text between them (grammar.lark:152-153, 174) *)

(** Python's \s on the characters 0 to 255 *)
Definition blank (c : ascii) : Prop := In (nat_of_ascii c) [9; 10; 11; 12; 13; 28; 29; 30; 31; 32; 133; 160].
Definition newline : ascii := ascii_of_nat 10.

(** [glued w c]: after the word [w], the character [c] would belong to the same word *)
Definition glued (w : string) (c : ascii) : Prop :=
  (exists a r, w = String a r /\ (letter a \/ a = ":"%char) /\ name_char c)
  \/ (exists a r, w = String a r /\ digit a /\ (digit c \/ c = "."%char))
  \/ ((w = ">" \/ w = "<") /\ c = "="%char).
Definition word (w : string) : Prop := exists t, lexeme t w.

Inductive spelled : list string -> string -> Prop :=
| Sp_end : spelled [] ""
| Sp_blank c ws s : blank c -> spelled ws s -> spelled ws (String c s)
| Sp_comment b ws s : each (fun c => c <> newline) b -> (s = "" \/ exists r, s = String newline r) ->
    spelled ws s -> spelled ws (";" ++ b ++ s)
| Sp_word w ws s : word w -> (forall c r, s = String c r -> ~ glued w c) ->
    spelled ws s -> spelled (w :: ws) (w ++ s).

(** the text is derived from a rule *)
Definition in_grammar (n s : string) : Prop := exists ws, spelled ws s /\ derives lexeme rules (N n) ws.

(** * The part of the grammar that can be read one word at a time *)

(** the words that begin a group of their own *)
Definition reserved : list string :=
  ["or"; "not"; "and"; "imply"; "exists"; "forall"; "when"; "oneof";
   "assign"; "scale-up"; "scale-down"; "increase"; "decrease"; "object"].
(** none of them is used as a name *)
Definition plain (t w : string) : Prop := lexeme t w /\ (t = "NAME" -> ~ In w reserved).

(** the same rules, but "(- a b)" is left out, and the first operand of a comparison with "=" is
    not written as a bare name *)
Definition plain_changes : list (string * sym) :=
  [("binary_op", Alt [N "multi_op"; T "DIVIDE"]);
   ("gd", Alt [N "atomic_formula_term";
               Seq [L; T "OR"; Star (N "gd"); R];
               Seq [L; T "NOT"; N "gd"; R];
               Seq [L; T "AND"; Star (N "gd"); R];
               Seq [L; T "IMPLY"; N "gd"; N "gd"; R];
               Seq [L; T "EXISTS"; L; N "typed_list_variable"; R; N "gd"; R];
               Seq [L; T "FORALL"; L; N "typed_list_variable"; R; N "gd"; R];
               Seq [L; N "order"; N "f_exp"; N "f_exp"; R];
               Seq [L; T "EQUAL_OP"; N "operand"; N "f_exp"; R]]);
   ("order", Alt [T "GREATER_OP"; T "LESSER_OP"; T "GREATER_EQUAL_OP"; T "LESSER_EQUAL_OP"]);
   ("operand", Alt [N "num_literal";
                    Seq [L; N "binary_op"; N "f_exp"; N "f_exp"; R];
                    Seq [L; N "multi_op"; N "f_exp"; Plus (N "f_exp"); R];
                    Seq [L; T "MINUS"; N "f_exp"; R];
                    Seq [L; T "NAME"; Star (N "term"); R]])].
Definition plain_rules : list (string * sym) :=
  plain_changes
  ++ filter (fun r => negb (existsb (fun c => String.eqb (fst r) (fst c)) plain_changes)) rules.

(** the text is derived from a rule of this part *)
Definition in_plain_grammar (n s : string) : Prop :=
  exists ws, spelled ws s /\ derives plain plain_rules (N n) ws.
