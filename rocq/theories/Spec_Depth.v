(** Nesting (C87). *)
From Coq Require Import String Ascii List Arith.
From Verif Require Import Py Names Reqs Logic Validation Core.
Import ListNotations.
Open Scope string_scope.
Open Scope list_scope.

(** how deep operators, quantifiers and conditional effects are nested; 0 for an atom *)
Fixpoint depth (f : form) : nat :=
  match f with
  | FPred _ _ | FNumFun _ _ | FEq _ _ | FNumVal _ => 0
  | FBinFun _ ops | FBin _ ops => 1 + fold_right (fun g n => Nat.max (depth g) n) 0 ops
  | FNot g | FQuant _ _ g | FForall _ g => 1 + depth g
  | FWhen c e => 1 + Nat.max (depth c) (depth e)
  end.

(** the largest number of parentheses that are open at one point of a text, [open] of them at its
    beginning; parentheses in comments (from ; to the end of the line) do not count *)
Fixpoint nested (open : nat) (comment : bool) (s : string) : nat :=
  match s with
  | "" => open
  | String c r =>
      if comment then nested open (negb (Ascii.eqb c "010")) r
      else if Ascii.eqb c ";" then nested open true r
      else if Ascii.eqb c "(" then nested (S open) false r
      else if Ascii.eqb c ")" then Nat.max open (nested (pred open) false r)
      else nested open false r
  end.
Definition nesting (s : string) : nat := nested 0 false s.

(** the conditions and effects of a domain, and the formulas of a problem *)
Definition domain_formulas (d : domain) : list form :=
  flat_map (fun a => match a_pre a with Some f => [f] | None => [] end ++ match a_eff a with Some f => [f] | None => [] end)
           (d_actions d) ++ map dp_cond (d_derived d).
Definition problem_formulas (p : problem) : list form :=
  p_goal p :: p_init p ++ match p_metric p with Some m => [me_expr m] | None => [] end.
