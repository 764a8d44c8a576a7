(** Python building blocks used by the model of /repo/pddl.

    Nothing in this file models a function of the repository by itself: it fixes how Python
    values and builtins (exceptions, sets, dicts, sorted, str methods) are represented. *)
From Coq Require Import String Ascii List Bool NArith ZArith.
From Verif Require Import Req.
Import ListNotations.
Open Scope string_scope.
Open Scope list_scope.
Infix "+++" := String.append (right associativity, at level 60).

(** ** Exceptions as values.  Messages are not modelled, only the class, and the requirement that
    a PDDLMissingRequirementError names (exceptions.py:33-44); the PDDL exceptions are those of
    exceptions.py:16-44.
    [Diverges] stands for a call that never returns (see Parser.check_subtypes). *)
Inductive exn : Type :=
| ValueError | TypeError | KeyError | IndexError | AttributeError | AssertionError | RuntimeError
| NotImplementedError
| PDDLValidationError | PDDLParsingError | PDDLMissingRequirementError (requirement : req)
| LarkParseError   (* lark.ParseError raised by a callback *)
| LarkSyntaxError  (* UnexpectedToken / UnexpectedCharacters raised by Lark itself *)
| Diverges.

(** the outcome of a Python call: a value, or the class of the exception raised *)
Inductive res (A : Type) : Type :=
| Ok (a : A)
| Err (e : exn).
Arguments Ok {A} a.
Arguments Err {A} e.

(** statements in sequence: an exception skips what follows *)
Definition bind {A B} (r : res A) (k : A -> res B) : res B :=
  match r with Ok a => k a | Err e => Err e end.
Notation "'let*' x ':=' r 'in' k" := (bind r (fun x => k))
  (at level 200, x pattern, r at level 100, k at level 200).
Notation "r ;; k" := (bind r (fun _ : unit => k)) (at level 199, right associativity).

(** the call returned *)
Definition is_ok {A} (r : res A) : bool := match r with Ok _ => true | Err _ => false end.

(** raise [e] unless [b] (helpers/base.py:39-55 check / assert_) *)
Definition check (b : bool) (e : exn) : res unit := if b then Ok tt else Err e.

(** evaluate [f] on the elements from left to right, stopping at the first exception *)
Section MapR.
  Context {A B : Type} (f : A -> res B).
  Fixpoint mapR (l : list A) : res (list B) :=
    match l with
    | [] => Ok []
    | x :: xs => let* y := f x in let* ys := mapR xs in Ok (y :: ys)
    end.
End MapR.

Section IterR.
  Context {A : Type} (f : A -> res unit).
  (** a Python [for] loop whose body only raises *)
  Fixpoint iterR (l : list A) : res unit :=
    match l with
    | [] => Ok tt
    | x :: xs => f x ;; iterR xs
    end.
End IterR.

(** ** Sets: lists in iteration order, compared by an [==] *)
Section Sets.
  Context {A : Type} (eqb : A -> A -> bool).
  (** Python [x in l] *)
  Definition memb (x : A) (l : list A) : bool := existsb (eqb x) l.
  (** [frozenset(l)], [set(l)], [list(dict.fromkeys(l))]: the first of equal elements is kept *)
  Fixpoint dedup_from (seen : list A) (l : list A) : list A :=
    match l with
    | [] => []
    | x :: xs => if memb x seen then dedup_from seen xs else x :: dedup_from (x :: seen) xs
    end.
  (** [frozenset(l)], [set(l)]: the elements in order of first occurrence *)
  Definition dedup (l : list A) : list A := dedup_from [] l.
  (** [l <= m], [l.issubset(m)] *)
  Definition subset (l m : list A) : bool := forallb (fun x => memb x m) l.
  (** [l == m] of two sets *)
  Definition set_eqb (l m : list A) : bool := subset l m && subset m l.
  (** [l | m] *)
  Definition union (l m : list A) : list A := dedup (l ++ m).
End Sets.

(** [==] of two lists or tuples *)
Section ListEq.
  Context {A : Type} (eqb : A -> A -> bool).
  Fixpoint list_eqb (l m : list A) : bool :=
    match l, m with
    | [], [] => true
    | x :: xs, y :: ys => eqb x y && list_eqb xs ys
    | _, _ => false
    end.
End ListEq.

(** [a == b] where either may be None *)
Definition option_eqb {A} (eqb : A -> A -> bool) (a b : option A) : bool :=
  match a, b with
  | None, None => true
  | Some x, Some y => eqb x y
  | _, _ => false
  end.

(** ** Dicts: association lists in insertion order.  Assigning to a present key keeps the
    old key object and its position and replaces the value. *)
Section Dicts.
  Context {K V : Type} (eqb : K -> K -> bool).
  (** [d.get(k)] *)
  Fixpoint dict_get (k : K) (d : list (K * V)) : option V :=
    match d with
    | [] => None
    | (k', v) :: d' => if eqb k k' then Some v else dict_get k d'
    end.
  (** [d[k] = v] *)
  Fixpoint dict_set (k : K) (v : V) (d : list (K * V)) : list (K * V) :=
    match d with
    | [] => [(k, v)]
    | (k', v') :: d' => if eqb k k' then (k', v) :: d' else (k', v') :: dict_set k v d'
    end.
  (** [k in d] *)
  Definition dict_has (k : K) (d : list (K * V)) : bool :=
    match dict_get k d with Some _ => true | None => false end.
  (** [{k: v for k, v in l}] *)
  Definition dict_of_list (l : list (K * V)) : list (K * V) :=
    fold_left (fun d kv => dict_set (fst kv) (snd kv) d) l [].
  (** [d1 == d2] *)
  Definition dict_eqb (veqb : V -> V -> bool) (d1 d2 : list (K * V)) : bool :=
    Nat.eqb (length d1) (length d2) &&
    forallb (fun kv => match dict_get (fst kv) d2 with
                       | Some v => veqb (snd kv) v
                       | None => false
                       end) d1.
End Dicts.

(** ** sorted(): stable insertion sort that only uses [<] *)
Section Sort.
  Context {A : Type} (lt : A -> A -> bool).
  (** one insertion of the sort *)
  Fixpoint insert (x : A) (l : list A) : list A :=
    match l with
    | [] => [x]
    | y :: ys => if lt y x then y :: insert x ys else x :: l
    end.
  (** [sorted(l)] *)
  Fixpoint sort_by (l : list A) : list A :=
    match l with
    | [] => []
    | x :: xs => insert x (sort_by xs)
    end.
End Sort.

(** string [<]: by code point *)
Definition str_lt (a b : string) : bool :=
  match String.compare a b with Lt => true | _ => false end.
(** [sorted(l)] of strings *)
Definition sort_str : list string -> list string := sort_by str_lt.

(** lexicographic comparison of sequences as Python does it: skip the common ==-equal prefix,
    then compare the first differing pair with [<]; a proper prefix is smaller. *)
Fixpoint seq_lt {A} (eqb lt : A -> A -> bool) (l m : list A) : bool :=
  match l, m with
  | [], [] => false
  | [], _ :: _ => true
  | _ :: _, [] => false
  | x :: xs, y :: ys => if eqb x y then seq_lt eqb lt xs ys else lt x y
  end.

(** ** str methods *)
Definition code (c : ascii) : N := N_of_ascii c.
(** [lo <= ord(c) <= hi] *)
Definition in_range (lo hi : N) (c : ascii) : bool := (lo <=? code c)%N && (code c <=? hi)%N.

(** str.isspace / regex \s on Latin-1: \t\n\v\f\r, \x1c-\x1f, space, \x85, \xa0 *)
Definition is_space (c : ascii) : bool :=
  in_range 9 13 c || in_range 28 32 c || (code c =? 133)%N || (code c =? 160)%N.

(** line boundaries of str.splitlines on Latin-1: \n \v \f \r \x1c \x1d \x1e \x85 *)
Definition is_linebreak (c : ascii) : bool :=
  in_range 10 13 c || in_range 28 30 c || (code c =? 133)%N.

(** the string "\n" *)
Definition nl : string := String (ascii_of_nat 10) "".
(** a one character string *)
Definition str1 (c : ascii) : string := String c "".

(** [sep.join(l)] *)
Fixpoint join (sep : string) (l : list string) : string :=
  match l with
  | [] => ""
  | [x] => x
  | x :: xs => x +++ sep +++ join sep xs
  end.

(** [s.lstrip()] *)
Fixpoint lstrip (s : string) : string :=
  match s with
  | "" => ""
  | String c r => if is_space c then lstrip r else s
  end.
(** [s.rstrip()] *)
Fixpoint rstrip (s : string) : string :=
  match s with
  | "" => ""
  | String c r =>
      match rstrip r with
      | "" => if is_space c then "" else str1 c
      | r' => String c r'
      end
  end.
(** [s.strip()] *)
Definition strip (s : string) : string := rstrip (lstrip s).

(** str.split() with no argument: the maximal runs of non-whitespace characters *)
Fixpoint split_ws (s : string) : list string :=
  match s with
  | "" => []
  | String c r =>
      if is_space c then split_ws r
      else match r with
           | "" => [str1 c]
           | String d _ =>
               if is_space d then str1 c :: split_ws r
               else match split_ws r with
                    | [] => [str1 c]
                    | w :: ws => String c w :: ws
                    end
           end
  end.

(** str.splitlines: pairs (line, line ending) *)
Fixpoint splitlines (s : string) : list (string * string) :=
  match s with
  | "" => []
  | String c r =>
      if is_linebreak c then
        if (code c =? 13)%N then
          match r with
          | String d r' =>
              if (code d =? 10)%N then ("", String c (str1 d)) :: splitlines r'
              else ("", str1 c) :: splitlines r
          | "" => [("", str1 c)]
          end
        else ("", str1 c) :: splitlines r
      else match splitlines r with
           | [] => [(str1 c, "")]
           | (l, e) :: ls => (String c l, e) :: ls
           end
  end.

(** [s.strip() == ""] *)
Definition blank (s : string) : bool := String.eqb (strip s) "".

(** textwrap.indent(text, prefix): prefix every line that is not only whitespace *)
Definition indent (prefix text : string) : string :=
  String.concat "" (map (fun le => (if blank (fst le) then "" else prefix) +++ fst le +++ snd le)
                        (splitlines text)).

(** [c.lower()] of an ASCII character *)
Definition to_lower_char (c : ascii) : ascii :=
  if in_range 65 90 c then ascii_of_N (code c + 32) else c.
(** str.lower() on ASCII names *)
Fixpoint lower (s : string) : string :=
  match s with "" => "" | String c r => String (to_lower_char c) (lower r) end.

(** ** while loops: run [step] at most 2^n times; [inr r] ends the loop *)
Section Loop.
  Context {S R : Type} (step : S -> S + R).
  Fixpoint loop (n : nat) (s : S) : S + R :=
    match n with
    | O => step s
    | Datatypes.S n' => match loop n' s with
                        | inl s' => loop n' s'
                        | inr r => inr r
                        end
    end.
End Loop.
