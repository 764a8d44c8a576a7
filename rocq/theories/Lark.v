(** Model of how Lark turns pddl/parser/grammar.lark into a parser (pddl/parser/base.py:30-40) and of
    how that parser runs on a text (base.py:44-69).

    Lark itself is not part of the repository; what is modelled is its documented algorithm, as
    selected by the arguments of base.py:34-40 (parser="lalr", contextual lexer, the transformer
    embedded in the parser, start symbol):
    - the rules of the grammar file are expanded to plain productions ([alts]);
    - an LALR(1) automaton reads the text from left to right; a conflict between shifting and
      reducing is resolved in favour of shifting (the tables are in LarkTables.v);
    - the lexer tries, at each point, only the terminals that the current state accepts;
    - each time a rule is complete, its callback in the transformer runs at once. *)
From Coq Require Import String Ascii List Bool BinNat PArith FMapPositive.
From Verif Require Import Py Names Lexer Spec_Grammar.
Import ListNotations.
Open Scope string_scope.
Open Scope list_scope.

(** * From the rules of the file to productions *)

(** the symbols on the left of productions: the rules of the file, and for each repeated
    expression [e] ([e*] or [e+]) one more symbol, which Lark calls "__..._star_i" *)
Inductive nt : Type := Rule (n : string) | Rep (e : sym).
Inductive bsym : Type := BT (t : string) | BN (A : nt).
(** an element of the right side of a production: a symbol, or the None that an absent [e] leaves
    in the list of children *)
Inductive el : Type := ES (x : bsym) | EAbsent.

(** the anonymous terminal "?" (grammar.lark:97) is not passed to the callbacks *)
Definition filtered (t : string) : bool := match t with String "?" _ => true | _ => false end.

(** how many None an absent part leaves *)
Fixpoint width (e : sym) : nat :=
  match e with
  | T t => if filtered t then 0 else 1
  | N _ => 1
  | Seq l => (fix go l := match l with [] => 0 | x :: r => width x + go r end) l
  | Alt l => (fix go l := match l with [] => 0 | x :: r => Nat.max (width x) (go r) end) l
  | Opt x => width x
  | Star _ | Plus _ => 0
  end.

(** all ways to join one list of [a] with one of [b] *)
Definition joins {A} (a b : list (list A)) : list (list A) := flat_map (fun x => map (app x) b) a.

(** the right sides that an expression stands for *)
Fixpoint alts (e : sym) : list (list el) :=
  match e with
  | T t => [[ES (BT t)]]
  | N n => [[ES (BN (Rule n))]]
  | Seq l => (fix go l := match l with [] => [[]] | x :: r => joins (alts x) (go r) end) l
  | Alt l => (fix go l := match l with [] => [] | x :: r => alts x ++ go r end) l
  | Opt x => alts x ++ [repeat EAbsent (width x)]
  | Plus x => [[ES (BN (Rep x))]]
  | Star x => [[ES (BN (Rep x))]; []]
  end.
(** the productions of the symbol for a repetition: e and __e e *)
Definition rep_alts (e : sym) : list (list el) := alts e ++ map (cons (ES (BN (Rep e)))) (alts e).

(** the symbols of a right side *)
Definition syms (a : list el) : list bsym :=
  flat_map (fun x => match x with ES s => [s] | EAbsent => [] end) a.

(** equality of symbols *)
Fixpoint sym_eqb (a b : sym) {struct a} : bool :=
  let fix go (l m : list sym) {struct l} : bool :=
    match l, m with
    | [], [] => true
    | x :: l', y :: m' => sym_eqb x y && go l' m'
    | _, _ => false
    end in
  match a, b with
  | T x, T y => String.eqb x y
  | N x, N y => String.eqb x y
  | Seq l, Seq m => go l m
  | Alt l, Alt m => go l m
  | Opt x, Opt y => sym_eqb x y
  | Star x, Star y => sym_eqb x y
  | Plus x, Plus y => sym_eqb x y
  | _, _ => false
  end.
Definition nt_eqb (a b : nt) : bool :=
  match a, b with
  | Rule x, Rule y => String.eqb x y
  | Rep x, Rep y => sym_eqb x y
  | _, _ => false
  end.
Definition bsym_eqb (a b : bsym) : bool :=
  match a, b with
  | BT x, BT y => String.eqb x y
  | BN x, BN y => nt_eqb x y
  | _, _ => false
  end.
Definition el_eqb (a b : el) : bool :=
  match a, b with
  | ES x, ES y => bsym_eqb x y
  | EAbsent, EAbsent => true
  | _, _ => false
  end.

(** * Tables *)
Inductive act : Type := Shift (q : positive) | Reduce (A : nt) (a : list el).
Record table : Type := mkTable {
  t_act : PositiveMap.t (list (string * act));      (* by state, then terminal *)
  t_goto : PositiveMap.t (list (nt * positive));    (* by state, then rule *)
  t_end : positive                                  (* the state in which the text is complete *)
}.
(** a table from its rows; the states are numbered from 1, the initial state *)
Fixpoint map_of {A} (i : positive) (rows : list A) : PositiveMap.t A :=
  match rows with [] => PositiveMap.empty A | r :: rs => PositiveMap.add i r (map_of (Pos.succ i) rs) end.
Definition row {A} (m : PositiveMap.t (list A)) (q : positive) : list A :=
  match PositiveMap.find q m with Some r => r | None => [] end.
Fixpoint get {K A} (eqb : K -> K -> bool) (k : K) (l : list (K * A)) : option A :=
  match l with [] => None | (k', a) :: r => if eqb k k' then Some a else get eqb k r end.

(** the terminals that a state accepts *)
Definition accepted (r : list (string * act)) : list string := map fst r.

(** * Words *)

(** the word that a terminal stands for, if it is given as a string *)
Definition literal (t : string) : option string :=
  match get String.eqb t terminals with Some (Lit w) => Some w | _ => None end.
(** NAME (grammar.lark:156) *)
Definition is_name (w : string) : bool :=
  match w with String c r => is_alpha c && all_chars is_name_char r | "" => false end.

(** the longest beginning of [s] whose characters satisfy [p], and the rest *)
Fixpoint span (p : ascii -> bool) (s : string) : string * string :=
  match s with
  | String c r => if p c then let '(w, r') := span p r in (String c w, r') else ("", s)
  | "" => ("", "")
  end.
(** NUMBER (grammar.lark:216): the longest match at the beginning of [s]; [after] tells what
    precedes: digits, or digits and one dot (then nothing is matched unless a digit follows) *)
Fixpoint number_from (s : string) : string * string :=
  match s with
  | String c r =>
      if is_digit c then let '(w, r') := number_from r in (String c w, r')
      else if chr 46%N c then
        match r with
        | String d r1 =>
            if is_digit d then let '(w, r') := number_from r1 in (String c (String d w), r')
            else ("", s)
        | "" => ("", s)
        end
      else ("", s)
  | "" => ("", "")
  end.
Definition is_number (w : string) : bool :=
  match w with
  | String c r => is_digit c && match number_from r with (_, "") => true | _ => false end
  | "" => false
  end.

(** the rest of [s] after the beginning [p] *)
Fixpoint after (p s : string) : option string :=
  match p, s with
  | "", _ => Some s
  | String a p', String b s' => if Ascii.eqb a b then after p' s' else None
  | _, "" => None
  end.

(** * The lexer *)

(** the terminals given as strings, among those accepted *)
Definition literals (acc : list string) : list (string * string) :=
  flat_map (fun t => match literal t with Some w => [(t, w)] | None => [] end) acc.
(** the accepted string terminal that matches the longest beginning of [s] *)
Fixpoint longest (ls : list (string * string)) (s : string) : option (string * string * string) :=
  match ls with
  | [] => None
  | (t, w) :: r =>
      match after w s with
      | Some s' => match longest r s with
                   | Some (t', w', s'') => if Nat.ltb (String.length w) (String.length w')
                                           then Some (t', w', s'') else Some (t, w, s')
                   | None => Some (t, w, s')
                   end
      | None => longest r s
      end
  end.
(** The terminal, the word and the rest of the text, when [s] begins with a word.  The patterns of
    NAME and NUMBER are tried before the strings; a NAME that is one of the accepted strings counts
    as that terminal. *)
Definition match_word (acc : list string) (s : string) : option (string * string * string) :=
  match s with
  | "" => None
  | String c r =>
      if is_alpha c && memb String.eqb "NAME" acc then
        let '(w, r') := span is_name_char r in
        let w := String c w in
        match find (fun tw => String.eqb (snd tw) w) (literals acc) with
        | Some (t, _) => Some (t, w, r')
        | None => Some ("NAME", w, r')
        end
      else if is_digit c && memb String.eqb "NUMBER" acc then
        let '(w, r') := number_from r in Some ("NUMBER", String c w, r')
      else longest (literals acc) s
  end.

(** ignored text (grammar.lark:152-153, 174): blanks and comments *)
Inductive skipping : Type := Between | Comment.
Fixpoint skip (k : skipping) (s : string) : string :=
  match s with
  | "" => ""
  | String c r =>
      match k with
      | Comment => if chr 10%N c then skip Between r else skip Comment r
      | Between => if is_space c then skip Between r
                   else if chr 59%N c then skip Comment r else s
      end
  end.

(** what the lexer returns: the next terminal and word, the end of the text, or no match *)
Inductive lexed (I : Type) : Type :=
| LWord (t w : string) (i : I)
| LEnd
| LNone.
Arguments LWord {I}. Arguments LEnd {I}. Arguments LNone {I}.

(** on a text; the words read so far are recorded *)
Definition lex_text (acc : list string) (i : string * list string) : lexed (string * list string) :=
  let '(s, log) := i in
  match skip Between s with
  | "" => LEnd
  | s' => match match_word acc s' with
          | Some (t, w, r) => LWord t w (r, w :: log)
          | None => LNone
          end
  end.

(** on a list of words: which of the accepted terminals is the word *)
Definition classify (acc : list string) (w : string) : option string :=
  match find (fun tw => String.eqb (snd tw) w) (literals acc) with
  | Some (t, _) => Some t
  | None => if memb String.eqb "NAME" acc && is_name w then Some "NAME"
            else if memb String.eqb "NUMBER" acc && is_number w then Some "NUMBER"
            else None
  end.
Definition lex_words (acc : list string) (ws : list string) : lexed (list string) :=
  match ws with
  | [] => LEnd
  | w :: r => match classify acc w with Some t => LWord t w r | None => LNone end
  end.

(** * The machine (lark's LALR parser) *)
Section Machine.
  (** the values of the callbacks, the attributes of the transformer, the rest of the input *)
  Context {V St I : Type}.
  Variable tbl : table.
  Variable lexer : list string -> I -> lexed I.
  (** a token, and what runs when a production is complete *)
  Variable leaf : string -> V.
  Variable reduce : nt -> list el -> list V -> St -> St * res V.

  Record conf : Type := mkConf {
    c_stack : list (positive * V);               (* innermost first *)
    c_look : option (string * string);           (* the token that was read but not consumed *)
    c_input : I;
    c_st : St
  }.
  Definition top (s : list (positive * V)) : positive := match s with [] => 1%positive | (q, _) :: _ => q end.
  (** the last [n] values, first to last, and the stack below them *)
  Fixpoint pop (n : nat) (s : list (positive * V)) (vs : list V) : list V * list (positive * V) :=
    match n, s with
    | S n', (_, v) :: s' => pop n' s' (v :: vs)
    | _, _ => (vs, s)
    end.

  (** one step: the next configuration, or the result.  Any failure of the tables or the lexer is
      a LarkError (UnexpectedToken, UnexpectedCharacters, UnexpectedEOF). *)
  Definition step (c : conf) : conf + (St * res V * I) :=
    let '(mkConf stack look inp st) := c in
    let r := row (t_act tbl) (top stack) in
    match look with
    | None =>
        match lexer (accepted r) inp with
        | LWord t w inp' => inl (mkConf stack (Some (t, w)) inp' st)
        | LEnd => inl (mkConf stack (Some ("$END", "")) inp st)
        | LNone => inr (st, Err LarkSyntaxError, inp)
        end
    | Some (t, w) =>
        match get String.eqb t r with
        | None => inr (st, Err LarkSyntaxError, inp)
        | Some (Shift q) => inl (mkConf ((q, leaf w) :: stack) None inp st)
        | Some (Reduce A a) =>
            let '(vs, stack') := pop (length (syms a)) stack [] in
            let '(st', r) := reduce A a vs st in
            match r with
            | Err e => inr (st', Err e, inp)
            | Ok v =>
                match get nt_eqb A (row (t_goto tbl) (top stack')) with
                | None => inr (st', Err LarkSyntaxError, inp)
                | Some q =>
                    if String.eqb t "$END" && Pos.eqb q (t_end tbl) then inr (st', Ok v, inp)
                    else inl (mkConf ((q, v) :: stack') look inp st')
                end
            end
        end
    end.
  Fixpoint run (n : nat) (c : conf) : option (St * res V * I) :=
    match n with
    | O => None
    | S n' => match step c with inl c' => run n' c' | inr r => Some r end
    end.
  Definition begin (inp : I) (st : St) : conf := mkConf [] None inp st.
  (** the machine stops with this result *)
  Definition returns (c : conf) (r : St * res V * I) : Prop := exists n, run n c = Some r.
End Machine.

(** * The tree builder: what is passed to the callbacks *)

(** the rules marked with "?" in the grammar file: when there is exactly one child, it takes the
    place of the node and no callback runs *)
Definition inlined : list string :=
  ["f_type_def"; "structure_def"; "action_body_def"; "term"; "predicate"; "binary_comp"; "binary_op";
   "multi_op"; "assign_op"; "variable"; "primitive_type"; "optimization"; "require_key"].

Section Builder.
  Context {V St : Type}.
  (** the value of a symbol for a repetition is the list of its children *)
  Variables (none : V) (splice : list V -> V) (spliced : V -> list V).
  Variable callback : string -> list V -> St -> St * res V.

  (** the children of a node: repetitions are expanded in place, "?" is dropped, None is added *)
  Fixpoint children (a : list el) (vs : list V) : list V :=
    match a, vs with
    | [], _ => []
    | EAbsent :: a', _ => none :: children a' vs
    | ES (BT t) :: a', v :: vs' => if filtered t then children a' vs' else v :: children a' vs'
    | ES (BN (Rule _)) :: a', v :: vs' => v :: children a' vs'
    | ES (BN (Rep _)) :: a', v :: vs' => spliced v ++ children a' vs'
    | _, [] => []
    end.
  Definition call (n : string) (cs : list V) (st : St) : St * res V :=
    match cs with
    | [v] => if memb String.eqb n inlined then (st, Ok v) else callback n cs st
    | _ => callback n cs st
    end.
  Definition build (A : nt) (a : list el) (vs : list V) (st : St) : St * res V :=
    match A with
    | Rep _ => (st, Ok (splice (children a vs)))
    | Rule n => call n (children a vs) st
    end.
End Builder.
