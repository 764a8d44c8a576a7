(** Specification: the grammar that an LALR(1) parser with a contextual lexer reads when it is given
    pddl/parser/grammar.lark, and the trees of its texts.

    It is the grammar of the file (Spec_Grammar.v) with four differences, each marked below:
    - where a NAME competes with words of the language, those words are not names.  The rules in
      which this depends on the place have one version for each place: [atomic_formula_term@gd]
      is an [atomic_formula_term] whose name is not one of the words that begin a condition;
    - "(- a b)" is not read, and "(+ a b)" is read with the rule for two or more operands: in
      [binary_op], only DIVIDE is left;
    - a comparison "=" of function expressions is not followed by a NAME;
    - a type is not followed by the NAME "object". *)
From Coq Require Import String Ascii List Bool.
From Verif Require Import Py Spec_Grammar.
Import ListNotations.
Open Scope string_scope.
Open Scope list_scope.

(** the name of a rule or terminal without the place *)
Fixpoint base (s : string) : string :=
  match s with
  | "" => ""
  | String c r => if Ascii.eqb c "@" then "" else String c (base r)
  end.

(** * Words: the words that are not names at each place *)
Definition gd_words : list string := ["and"; "or"; "not"; "imply"; "exists"; "forall"].
Definition p_words : list string := ["not"; "assign"; "scale-up"; "scale-down"; "increase"; "decrease"].
Definition cond_words : list string := "and" :: p_words.
Definition c_words : list string := ["forall"; "when"; "oneof"] ++ p_words.
Definition effect_words : list string := "and" :: c_words.
Definition taken (t : string) : list string :=
  if String.eqb t "NAME@gd" then gd_words
  else if String.eqb t "NAME@effect" then effect_words
  else if String.eqb t "NAME@c_effect" then c_words
  else if String.eqb t "NAME@cond" then cond_words
  else if String.eqb t "NAME@p" then p_words
  else if String.eqb t "NAME@init" then ["not"]
  else if String.eqb t "NAME@type" then ["object"]
  else [].
Definition word_at (t w : string) : Prop := lexeme (base t) w /\ ~ In w (taken t).

(** * Rules: name, expression, and what may follow: a pair [(t, t')] says that if the word after it is
    a [t], then it is also a [t'] (no word is a [""]) *)
Definition c_effect_at (p : string) : sym :=
  Alt [Seq [L; T "FORALL"; L; N "typed_list_variable"; R; N "effect"; R];
       Seq [L; T "WHEN"; N "gd"; N "cond_effect"; R];
       Seq [L; T "ONEOF"; Plus (N "effect"); R];
       N p].
Definition p_effect_at (a : string) : sym :=
  Alt [Seq [L; T "NOT"; N "atomic_formula_term"; R]; N a; N "num_effect"].
Definition atomic_at (p : string) : sym :=
  Alt [Seq [L; N p; Star (N "term"); R]; Seq [L; T "EQUAL_OP"; N "term"; N "term"; R]].

(** the rules that differ from those of the file *)
Definition changed_rules : list (string * sym * list (string * string)) :=
  [("binary_op", T "DIVIDE", []);                                             (* not multi_op, MINUS *)
   ("binary_comp", Alt [T "GREATER_OP"; T "LESSER_OP"; T "GREATER_EQUAL_OP"; T "LESSER_EQUAL_OP"], []);
   ("binary_comp", T "EQUAL_OP", [("NAME", "")]);                             (* not before a NAME *)
   ("primitive_type", Alt [T "NAME@type"; T "OBJECT"], [("NAME", "NAME@type")]);   (* nor before "object" *)
   ("gd", Alt [N "atomic_formula_term@gd";
               Seq [L; T "OR"; Star (N "gd"); R];
               Seq [L; T "NOT"; N "gd"; R];
               Seq [L; T "AND"; Star (N "gd"); R];
               Seq [L; T "IMPLY"; N "gd"; N "gd"; R];
               Seq [L; T "EXISTS"; L; N "typed_list_variable"; R; N "gd"; R];
               Seq [L; T "FORALL"; L; N "typed_list_variable"; R; N "gd"; R];
               Seq [L; N "binary_comp"; N "f_exp"; N "f_exp"; R]], []);
   ("atomic_formula_term@gd", atomic_at "predicate@gd", []); ("predicate@gd", T "NAME@gd", []);
   ("effect", Alt [Seq [L; T "AND"; Star (N "c_effect"); R]; N "c_effect@effect"], []);
   ("c_effect@effect", c_effect_at "p_effect@effect", []);
   ("p_effect@effect", p_effect_at "atomic_formula_term@effect", []);
   ("atomic_formula_term@effect", atomic_at "predicate@effect", []); ("predicate@effect", T "NAME@effect", []);
   ("c_effect", c_effect_at "p_effect@c_effect", []);
   ("p_effect@c_effect", p_effect_at "atomic_formula_term@c_effect", []);
   ("atomic_formula_term@c_effect", atomic_at "predicate@c_effect", []); ("predicate@c_effect", T "NAME@c_effect", []);
   ("cond_effect", Alt [Seq [L; T "AND"; Star (N "p_effect@p"); R]; N "p_effect@cond"], []);
   ("p_effect@cond", p_effect_at "atomic_formula_term@cond", []);
   ("atomic_formula_term@cond", atomic_at "predicate@cond", []); ("predicate@cond", T "NAME@cond", []);
   ("p_effect@p", p_effect_at "atomic_formula_term@p", []);
   ("atomic_formula_term@p", atomic_at "predicate@p", []); ("predicate@p", T "NAME@p", []);
   ("literal_name", Alt [N "atomic_formula_name@init"; Seq [L; T "NOT"; N "atomic_formula_name"; R]], []);
   ("atomic_formula_name@init", Seq [L; N "predicate@init"; Star (T "NAME"); R], []);
   ("predicate@init", T "NAME@init", [])].
(** all the rules; the other rules are those of the file *)
Definition lark_rules : list (string * sym * list (string * string)) :=
  changed_rules
  ++ map (fun r => (fst r, snd r, []))
         (filter (fun r => negb (existsb (fun c => String.eqb (fst r) (fst (fst c))) changed_rules)) rules).

(** * Trees *)
Inductive ptree : Type :=
| PLeaf (w : string)                          (* a word *)
| PNode (n : string) (cs : list ptree)        (* a rule *)
| PNone.                                      (* an absent optional part *)

(** "?" leaves no trace in the tree *)
Definition dropped (t : string) : bool := match t with String "?" _ => true | _ => false end.
(** how many [PNone] an absent optional part leaves: one for each symbol *)
Fixpoint holes (e : sym) : nat :=
  match e with
  | T t => if dropped t then 0 else 1
  | N _ => 1
  | Seq l => (fix go l := match l with [] => 0 | x :: r => holes x + go r end) l
  | Alt l => (fix go l := match l with [] => 0 | x :: r => Nat.max (holes x) (go r) end) l
  | Opt x => holes x
  | Star _ | Plus _ => 0
  end.

(** a word together with its terminal *)
Definition tokens : Type := list (string * string).
(** the word that comes after, when [w] and then [nx] follow; after the last word comes [the_end] *)
Definition next (w : tokens) (nx : string * string) : string * string := match w with [] => nx | x :: _ => x end.
Definition the_end : string * string := ("$END", "").

Section Trees.
  Variable word_at : string -> string -> Prop.
  Definition allowed (no : list (string * string)) (nx : string * string) : Prop :=
    forall t t', In (t, t') no -> fst nx = t -> word_at t' (snd nx).
  (** [tree e cs w nx]: the words [w] are an [e], with the trees [cs], when the word [nx] follows *)
  Inductive tree : sym -> list ptree -> tokens -> string * string -> Prop :=
  | P_T t w nx : word_at t w -> tree (T t) (if dropped t then [] else [PLeaf w]) [(base t, w)] nx
  | P_N n e no cs w nx : In (n, e, no) lark_rules -> allowed no nx -> tree e cs w nx ->
      tree (N n) [PNode (base n) cs] w nx
  | P_Seq_nil nx : tree (Seq []) [] [] nx
  | P_Seq_cons e l c1 c2 u v nx : tree e c1 u (next v nx) -> tree (Seq l) c2 v nx ->
      tree (Seq (e :: l)) (c1 ++ c2) (u ++ v) nx
  | P_Alt e l cs w nx : In e l -> tree e cs w nx -> tree (Alt l) cs w nx
  | P_Opt_none e nx : tree (Opt e) (repeat PNone (holes e)) [] nx
  | P_Opt_some e cs w nx : tree e cs w nx -> tree (Opt e) cs w nx
  | P_Star_nil e nx : tree (Star e) [] [] nx
  | P_Star_some e cs w nx : tree (Plus e) cs w nx -> tree (Star e) cs w nx
  | P_Plus_one e cs w nx : tree e cs w nx -> tree (Plus e) cs w nx
  | P_Plus_more e c1 c2 u v nx : tree (Plus e) c1 u (next v nx) -> tree e c2 v nx ->
      tree (Plus e) (c1 ++ c2) (u ++ v) nx.
End Trees.

(** * What a tree is worth: the callbacks of its rules, each after those of its parts, from left to
    right; the first that raises an exception is the last *)
Section Visit.
  Context {V St : Type}.
  Variables (leaf : string -> V) (none : V) (callback : string -> list V -> St -> St * res V).
  Fixpoint visit (t : ptree) (st : St) {struct t} : St * res V :=
    match t with
    | PLeaf w => (st, Ok (leaf w))
    | PNone => (st, Ok none)
    | PNode n cs =>
        match (fix go (cs : list ptree) (st : St) {struct cs} : St * res (list V) :=
                 match cs with
                 | [] => (st, Ok [])
                 | c :: cs' =>
                     match visit c st with
                     | (st1, Err e) => (st1, Err e)
                     | (st1, Ok v) => match go cs' st1 with
                                      | (st2, Ok vs) => (st2, Ok (v :: vs))
                                      | (st2, Err e) => (st2, Err e)
                                      end
                     end
                 end) cs st with
        | (st1, Ok vs) => callback n vs st1
        | (st1, Err e) => (st1, Err e)
        end
    end.
End Visit.

(** * Texts that consist of given words, with or without blanks between them *)
Inductive strung : list string -> string -> Prop :=
| St_end : strung [] ""
| St_blank c ws s : blank c -> strung ws s -> strung ws (String c s)
| St_comment b ws s : each (fun c => c <> newline) b -> (s = "" \/ exists r, s = String newline r) ->
    strung ws s -> strung ws (";" ++ b ++ s)
| St_word w ws s : word w -> strung ws s -> strung (w :: ws) (w ++ s).
