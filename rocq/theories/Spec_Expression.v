(** Specification for C78: a text is one expression in parentheses.  Reading starts in front of the
    first parenthesis; blanks and line ends are skipped everywhere; nothing may follow the parenthesis
    that closes the first one, and there are no comments. *)
From Coq Require Import String Ascii List.
From Verif Require Import Py Logic Validation Core.
Import ListNotations.
Open Scope string_scope.

Inductive reader := Before | Inside (open : nat) | Done.
Definition read_char (q : reader) (c : ascii) : option reader :=
  if is_space c then Some q
  else if Ascii.eqb c ";" then None
  else match q with
       | Before => if Ascii.eqb c "(" then Some (Inside 0) else None
       | Inside n => if Ascii.eqb c "(" then Some (Inside (S n))
                     else if Ascii.eqb c ")" then Some (match n with O => Done | S m => Inside m end)
                     else Some (Inside n)
       | Done => None
       end.
Fixpoint read_chars (q : reader) (s : string) : option reader :=
  match s with
  | "" => Some q
  | String c r => match read_char q c with Some q' => read_chars q' r | None => None end
  end.
Definition one_expression (s : string) : Prop := read_chars Before s = Some Done.
(** a part of an expression with as many opening as closing parentheses, closed after they are opened *)
Definition balanced (s : string) : Prop := forall n, read_chars (Inside n) s = Some (Inside n).

(** the numbers of an expression that are kept as texts (only the numbers of a parsed metric) *)
Fixpoint plain_numbers (f : form) : Prop :=
  match f with
  | FNumVal (NStr s) => balanced s
  | FBinFun _ ops | FBin _ ops => fold_right (fun g p => plain_numbers g /\ p) True ops
  | FNot g => plain_numbers g
  | FQuant _ _ c => plain_numbers c
  | FWhen c e => plain_numbers c /\ plain_numbers e
  | FForall _ e => plain_numbers e
  | _ => True
  end.
Definition plain_opt (o : option form) : Prop := forall f, o = Some f -> plain_numbers f.
Definition plain_action (a : action) : Prop := plain_opt (a_pre a) /\ plain_opt (a_eff a).
Definition plain_domain (d : domain) : Prop :=
  Forall plain_action (d_actions d) /\ Forall (fun x => plain_numbers (dp_cond x)) (d_derived d) /\
  (forall f t, In (f, Some t) (d_functions d) -> balanced t).
Definition plain_problem (p : problem) : Prop :=
  Forall plain_numbers (p_init p) /\ plain_numbers (p_goal p) /\
  (forall m, p_metric p = Some m -> plain_numbers (me_expr m)).
