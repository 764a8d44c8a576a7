(** Specification: what a written condition says about a state.  Defined on the text (trees of
    tokens); nothing here uses the library's functions. *)
From Coq Require Import String List Bool ZArith QArith.
From Verif Require Import Logic Lexer Sem Spec_Parse Spec_Numbers.
Import ListNotations.
Open Scope string_scope.
Open Scope list_scope.

Section Meaning.
  Variable I : interp.

  (** a sequence of terms [c] and [?x] and the objects they denote *)
  Inductive denotes (e : env I) : list sexp -> list (obj I) -> Prop :=
  | dn_nil : denotes e [] []
  | dn_name n l os : denotes e l os -> denotes e (name_sx n :: l) (i_const I n :: os)
  | dn_var n l os : denotes e l os -> denotes e (var_sx n ++ l) (e n :: os).

  (** numeric expressions: a numeral, [f], [(f t1 .. tn)], sums, products, quotients, negation *)
  Inductive amount (e : env I) : sexp -> Q -> Prop :=
  | am_num s q : numeral s q -> amount e (SAtom (TNum s)) q
  | am_name n : amount e (name_sx n) (i_func I n [])
  | am_fun n l os : denotes e l os -> amount e (SList (name_sx n :: l)) (i_func I n os)
  | am_sum l qs : Forall2 (amount e) l qs ->
      amount e (SList (SAtom (TOp "+") :: l)) (fold_right Qplus 0 qs)%Q
  | am_product l qs : Forall2 (amount e) l qs ->
      amount e (SList (SAtom (TOp "*") :: l)) (fold_right Qmult 1 qs)%Q
  | am_quotient x y p q : amount e x p -> amount e y q ->
      amount e (SList [SAtom (TOp "/"); x; y]) (p / q)
  | am_negation x p : amount e x p -> amount e (SList [SAtom (TOp "-"); x]) (- p)%Q.

  (** the comparison [o] holds between two numbers *)
  Definition compares (o : string) (p q : Q) : Prop :=
    (o = "=" /\ (p == q)%Q) \/ (o = "<" /\ (p < q)%Q) \/ (o = "<=" /\ (p <= q)%Q)
    \/ (o = ">" /\ (q < p)%Q) \/ (o = ">=" /\ (q <= p)%Q).

  (** [e'] gives the variables declared by [vs] objects of their types and agrees with [e]
      elsewhere *)
  Definition bound (vs : list sexp) (e e' : env I) : Prop :=
    exists groups tail, written_vars vs groups tail
      /\ (forall n, ~ In n (map fst (assigned groups tail)) -> e' n = e n)
      /\ (forall n gs, In (n, gs) (assigned groups tail) ->
            gs = [] \/ exists g, In g gs /\ i_type I g (e' n)).

  (** [(= t u)] between two terms; any other comparison is between numbers *)
  Definition term_sx (t : list sexp) : Prop := exists n, t = [name_sx n] \/ t = var_sx n.
  Definition two_terms (l : list sexp) : Prop :=
    exists t u, term_sx t /\ term_sx u /\ l = t ++ u.

  Fixpoint says (e : env I) (s : sexp) : Prop :=
    match s with
    | SList [] => True
    | SList (SAtom (TWord w) :: args) =>
        if String.eqb w "and" then fold_right (fun x p => says e x /\ p) True args
        else if String.eqb w "or" then fold_right (fun x p => says e x \/ p) False args
        else if String.eqb w "not" then match args with [x] => ~ says e x | _ => False end
        else if String.eqb w "imply" then
          match args with [x; y] => says e x -> says e y | _ => False end
        else if String.eqb w "forall" then
          match args with [SList vs; x] => forall e', bound vs e e' -> says e' x | _ => False end
        else if String.eqb w "exists" then
          match args with [SList vs; x] => exists e', bound vs e e' /\ says e' x | _ => False end
        else exists os, denotes e args os /\ i_pred I w os
    | SList (SAtom (TOp o) :: args) =>
        (o = "=" /\ exists a, denotes e args [a; a])
        \/ (~ (o = "=" /\ two_terms args)
            /\ exists x y p q, args = [x; y] /\ amount e x p /\ amount e y q /\ compares o p q)
    | _ => False
    end.
End Meaning.

(** ** Arithmetic in which nothing is repeated *)

(** [y] is written in [x], or is [x] *)
Inductive inside (y : sexp) : sexp -> Prop :=
| in_here : inside y y
| in_list x l : In x l -> inside y x -> inside y (SList l).

(** the operands of a sum, product or quotient, nested ones of the same kind opened *)
Fixpoint opened (o : string) (x : sexp) : list sexp :=
  match x with
  | SList (SAtom (TOp o') :: l) => if String.eqb o o' then flat_map (opened o) l else [x]
  | _ => [x]
  end.
Definition operands (o : string) (l : list sexp) : list sexp :=
  if String.eqb o "-" then l else flat_map (opened o) l.

(** two texts of the same numeric expression *)
Definition function_term (n : string) (l : list sexp) (x : sexp) : Prop :=
  x = SList (name_sx n :: l) \/ (x = name_sx n /\ l = []).
Inductive same_expr : sexp -> sexp -> Prop :=
| se_num a b q : numeral a q -> numeral b q -> same_expr (SAtom (TNum a)) (SAtom (TNum b))
| se_fun n l x y : function_term n l x -> function_term n l y -> same_expr x y
| se_op o l m : Forall2 same_expr (operands o l) (operands o m) ->
    same_expr (SList (SAtom (TOp o) :: l)) (SList (SAtom (TOp o) :: m)).

(** no sum, product or quotient has the same operand twice; no quotient is divided by a quotient *)
Definition nothing_repeated (s : sexp) : Prop :=
  forall o l, In o ["+"; "*"; "/"] -> inside (SList (SAtom (TOp o) :: l)) s ->
    ForallOrdPairs (fun x y => ~ same_expr x y) (operands o l).
Definition no_quotient_below (s : sexp) : Prop :=
  forall x l, ~ inside (SList [SAtom (TOp "/"); x; SList (SAtom (TOp "/") :: l)]) s.
Definition plain_arithmetic (s : sexp) : Prop := nothing_repeated s /\ no_quotient_below s.
