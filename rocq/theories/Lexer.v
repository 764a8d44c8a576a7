(** Model of the terminals of pddl/parser/grammar.lark and of how Lark
    splits a text into tokens and the tokens into parenthesised groups.

    The grammar is parsed by Lark with parser="lalr" and its contextual lexer (parser/base.py:34).
    Every rule of the grammar is delimited by parentheses, so the model reads a text in three
    steps: characters to tokens ([lex], this file), tokens to a tree of parentheses ([read], this
    file), tree to objects (Parser.v, one function per grammar rule, calling the transformer
    callbacks in the order in which Lark calls them).

    Simplifications:
    - words: all words that match NAME are tokens [TWord]; whether a word is a keyword is decided
      by the rule that meets it, which is what the contextual lexer does.  Texts in which two
      words are glued together ("(definefoo", "(:actionfoo"), which Lark can still split when
      only one terminal is possible at that point, are rejected by the model;
    - a text with a lexical error or unbalanced parentheses is rejected before any callback runs,
      while Lark runs the callbacks of the rules that end before the error. *)
From Coq Require Import String Ascii List Bool NArith.
From Verif Require Import Py Names.
Import ListNotations.
Open Scope string_scope.
Open Scope list_scope.

(** the terminals of grammar.lark:139-233 *)
Inductive token : Type :=
| LPAR | RPAR
| QMARK                 (* the anonymous terminal "?" *)
| TWord (s : string)    (* NAME and the alphabetic keywords *)
| TNum (s : string)     (* NUMBER *)
| TOp (s : string)      (* = > >= < <= + - * / *)
| TKw (s : string)      (* the keywords that begin with a colon *)
| TBad.                 (* no terminal matches: UnexpectedCharacters *)

(** grammar.lark:139-233: the terminals that begin with a colon *)
Definition colon_keywords : list string :=
  [":domain"; ":objects"; ":init"; ":goal"; ":requirements"; ":types"; ":constants";
   ":predicates"; ":functions"; ":action"; ":parameters"; ":precondition"; ":effect"; ":derived";
   ":metric"; ":strips"; ":typing"; ":equality"; ":adl"; ":non-deterministic";
   ":negative-preconditions"; ":disjunctive-preconditions"; ":derived-predicates";
   ":conditional-effects"; ":existential-preconditions"; ":universal-preconditions";
   ":quantified-preconditions"; ":numeric-fluents"; ":fluents"; ":action-costs"].

(** grammar.lark:139-233: a colon and name characters are a token only if the whole is a keyword *)
Definition kw_token (s : string) : token :=
  if memb String.eqb s colon_keywords then TKw s else TBad.

(** The lexer as a machine: what has been read of the current token *)
Inductive lstate : Type :=
| QStart
| QWord (s : string)
| QNum (s : string)
| QDot (s : string)      (* a number followed by one dot *)
| QKw (s : string)
| QGt | QLt
| QComment.

(** a literal character of a terminal *)
Definition chr (n : N) (c : ascii) : bool := (code c =? n)%N.

(** first character of a token, or ignored text (grammar.lark:152-153, 174: %ignore of whitespace and COMMENT) *)
Definition start (c : ascii) : lstate * list token :=
  if is_space c then (QStart, [])
  else if chr 59 c then (QComment, [])                 (* ; *)
  else if chr 40 c then (QStart, [LPAR])               (* ( *)
  else if chr 41 c then (QStart, [RPAR])               (* ) *)
  else if chr 63 c then (QStart, [QMARK])              (* ? *)
  else if chr 58 c then (QKw (str1 c), [])             (* : *)
  else if chr 62 c then (QGt, [])                      (* > *)
  else if chr 60 c then (QLt, [])                      (* < *)
  else if chr 61 c || chr 43 c || chr 45 c || chr 42 c || chr 47 c
       then (QStart, [TOp (str1 c)])                   (* = + - * / *)
  else if is_alpha c then (QWord (str1 c), [])
  else if is_digit c then (QNum (str1 c), [])
  else (QStart, [TBad]).

(** the token that ends here *)
Definition flush (q : lstate) : list token :=
  match q with
  | QStart | QComment => []
  | QWord s => [TWord s]
  | QNum s => [TNum s]
  | QDot s => [TNum s; TBad]
  | QKw s => [kw_token s]
  | QGt => [TOp ">"]
  | QLt => [TOp "<"]
  end.

(** the text matched so far, one character longer *)
Definition snoc (s : string) (c : ascii) : string := s +++ str1 c.

(** the current token ends before [c] *)
Definition restart (q : lstate) (c : ascii) : lstate * list token :=
  let '(q', ts) := start c in (q', flush q ++ ts).

(** one character.  NAME [a-zA-Z][a-zA-Z0-9-_]*, NUMBER [0-9]+(\.[0-9]+)*, COMMENT ;[^\n]* *)
Definition lstep (q : lstate) (c : ascii) : lstate * list token :=
  match q with
  | QStart => start c
  | QComment => if chr 10 c then (QStart, []) else (QComment, [])
  | QWord s => if is_name_char c then (QWord (snoc s c), []) else restart q c
  | QNum s => if is_digit c then (QNum (snoc s c), [])
              else if chr 46 c then (QDot s, []) else restart q c
  | QDot s => if is_digit c then (QNum (s +++ "." +++ str1 c), []) else restart q c
  | QKw s => if is_name_char c then (QKw (snoc s c), []) else restart q c
  | QGt => if chr 61 c then (QStart, [TOp ">="]) else restart q c
  | QLt => if chr 61 c then (QStart, [TOp "<="]) else restart q c
  end.

(** the tokens of the rest of a text *)
Fixpoint lex_from (q : lstate) (s : string) : list token :=
  match s with
  | "" => flush q
  | String c r => let '(q', ts) := lstep q c in ts ++ lex_from q' r
  end.
(** the tokens of a text (parser/base.py:64 parser.parse, its lexer) *)
Definition lex (s : string) : list token := lex_from QStart s.

(** ** Trees of parentheses *)
Inductive sexp : Type := SAtom (t : token) | SList (l : list sexp).

(** [stack]: the groups that are open, innermost first, each with its elements reversed *)
Fixpoint read_from (stack : list (list sexp)) (out : list sexp) (ts : list token)
  : option (list sexp) :=
  match ts with
  | [] => match stack with [] => Some (rev out) | _ => None end
  | LPAR :: ts' => read_from (out :: stack) [] ts'
  | RPAR :: ts' =>
      match stack with
      | [] => None
      | up :: stack' => read_from stack' (SList (rev out) :: up) ts'
      end
  | t :: ts' => read_from stack (SAtom t :: out) ts'
  end.
(** the groups of a text (parser/base.py:64 parser.parse) *)
Definition read (ts : list token) : option (list sexp) := read_from [] [] ts.

(** the text as a sequence of trees; None is a lexical or syntax error *)
Definition read_text (s : string) : option (list sexp) := read (lex s).
