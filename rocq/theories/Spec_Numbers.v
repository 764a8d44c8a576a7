(** Specification: the value of a written number and where numbers are written. *)
From Coq Require Import String Ascii List Bool ZArith QArith.
From Verif Require Import Logic Lexer Spec.
Import ListNotations.
Open Scope string_scope.
Open Scope list_scope.

(** positional notation, base ten *)
Definition digit (c : ascii) : option Z :=
  let n := Z.of_N (N_of_ascii c) in
  if (48 <=? n)%Z && (n <=? 57)%Z then Some (n - 48)%Z else None.
Fixpoint horner (acc : Z) (s : string) : option Z :=
  match s with
  | "" => Some acc
  | String c r => match digit c with Some d => horner (10 * acc + d) r | None => None end
  end.

(** [s] is a decimal numeral, ddd or ddd.ddd, and its value is [q] *)
Definition numeral (s : string) (q : Q) : Prop :=
  (exists z, s <> "" /\ horner 0 s = Some z /\ (q == inject_Z z)%Q)
  \/ (exists i f z w, s = String.append i (String.append "." f) /\ i <> "" /\ f <> ""
        /\ horner 0 i = Some z /\ horner 0 f = Some w
        /\ (q == inject_Z z + inject_Z w / inject_Z (10 ^ Z.of_nat (String.length f)))%Q).

(** the number tokens: ddd, ddd.ddd, and also ddd.ddd.ddd and so on, which are no numerals *)
Inductive dotted : string -> Prop :=
| D_digits s z : s <> "" -> horner 0 s = Some z -> dotted s
| D_dot s f z : dotted s -> f <> "" -> horner 0 f = Some z -> dotted (String.append s (String.append "." f)).

(** the number [s] is written somewhere in a tree *)
Inductive number_in (s : string) : sexp -> Prop :=
| NI_atom : number_in s (SAtom (TNum s))
| NI_list x l : In x l -> number_in s x -> number_in s (SList l).

(** a formula contains the number [q] *)
Definition contains_number (q : Q) (f : form) : Prop :=
  exists v r, within (FNumVal v) f /\ num_value v = Some r /\ (r == q)%Q.

(** the numbers of a formula are, by value, the numbers written in a text *)
Definition same_numbers (x : sexp) (f : form) : Prop :=
  (forall s, number_in s x -> exists q, numeral s q /\ contains_number q f)
  /\ (forall v, within (FNumVal v) f ->
        exists s q r, number_in s x /\ numeral s q /\ num_value v = Some r /\ (r == q)%Q).
