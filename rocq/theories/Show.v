(** Model of printing: [__str__] of pddl/logic/*.py, pddl/action.py, pddl/core.py and the whole
    of pddl/formatter.py. *)
From Coq Require Import String Ascii List Bool NArith ZArith DecimalString.
From Verif Require Import Py Names Reqs Logic Validation Core.
Import ListNotations.
Open Scope string_scope.
Open Scope list_scope.

(** ** Numbers: str(int), str(float) and str of a raw token.
    Simplification: a float is a decimal (Logic.num) and is printed positionally without
    trailing zeros, keeping one fractional digit; exponents are not modelled. *)
Definition show_N (n : N) : string := NilZero.string_of_uint (N.to_uint n).
(** str(int), used by functions.py:146-148 *)
Definition show_int (z : Z) : string :=
  match z with
  | Z0 => "0"
  | Zpos p => show_N (Npos p)
  | Zneg p => "-" +++ show_N (Npos p)
  end.

(** drop trailing zeros of m / 10^e while more than one fractional digit is left *)
Fixpoint norm_dec (m : N) (e : nat) : N * nat :=
  match e with
  | O => (m, O)
  | S O => (m, S O)
  | S e' => if (m mod 10 =? 0)%N then norm_dec (m / 10) e' else (m, e)
  end.

(** the last [e] digits of [m], with leading zeros *)
Fixpoint pad_digits (e : nat) (m : N) : string :=
  match e with
  | O => ""
  | S e' => pad_digits e' (m / 10) +++ show_N (m mod 10)
  end.

(** str(float) of a decimal that is not negative, used by functions.py:146-148 *)
Definition show_dec_N (m : N) (e : nat) : string :=
  let '(m', e') := norm_dec m e in
  match e' with
  | O => show_N m' +++ ".0"
  | _ => show_N (m' / 10 ^ N.of_nat e') +++ "." +++ pad_digits e' m'
  end.

(** functions.py:146-148 NumericValue.__str__ *)
Definition show_num (v : num) : string :=
  match v with
  | NInt z => show_int z
  | NDec m e => (if (m <? 0)%Z then "-" else "") +++ show_dec_N (Z.abs_N m) e
  | NStr s => s
  end.

(** ** Terms, formulas and effects *)

(** terms.py:127-129 *)
Definition show_var (v : var) : string := "?" +++ v_name v.
(** terms.py:96-98, 127-129 *)
Definition show_term (t : term) : string :=
  match t with TConst n _ => n | TVar v => show_var v end.

(** predicates.py:88-93, functions.py:84-89 *)
Definition show_atom (n : string) (ts : list term) : string :=
  match ts with
  | [] => "(" +++ n +++ ")"
  | _ => "(" +++ n +++ " " +++ join " " (map show_term ts) +++ ")"
  end.

(** functions.py:252-405 SYMBOL, with parser/symbols.py:22-71 *)
Definition bfun_symbol (k : bfun) : string :=
  match k with
  | BEqual => "=" | BLess => "<" | BLessEq => "<=" | BGreater => ">" | BGreaterEq => ">="
  | BAssign => "assign" | BScaleUp => "scale-up" | BScaleDown => "scale-down"
  | BIncrease => "increase" | BDecrease => "decrease"
  | BMinus => "-" | BPlus => "+" | BTimes => "*" | BDivide => "/"
  end.
(** base.py:155-180 SYMBOL *)
Definition bop_symbol (k : bop) : string :=
  match k with OAnd => "and" | OOr => "or" | OOneOf => "oneof" | OImply => "imply" end.
(** base.py:251-260 SYMBOL *)
Definition quant_symbol (q : quant) : string :=
  match q with QForall => "forall" | QExists => "exists" end.

(** base.py:220-225: one element of the variable block *)
Definition show_qvar (v : var) : string :=
  show_var v +++ match v_tags v with [] => "" | gs => " - " +++ join " " gs end.

(** helpers/base.py:127-137 _typed_parameters *)
Definition show_param (p : term) : string :=
  match t_tags p with
  | [] => show_term p
  | gs => "?" +++ t_name p +++ " - " +++ join " " gs
  end.
(** helpers/base.py:127-137 _typed_parameters *)
Definition typed_parameters (ps : list term) : string := strip (join " " (map show_param ps)).

(** predicates.py:88-93, 164-166; functions.py:84-89, 146-148, 175-177; base.py:73-75, 112-114,
    217-226; effects.py:50-52, 99-101 *)
Fixpoint show_form (f : form) : string :=
  match f with
  | FPred n ts => show_atom n ts
  | FEq l r => "(= " +++ show_term l +++ " " +++ show_term r +++ ")"
  | FNumFun n ts => show_atom n ts
  | FNumVal v => show_num v
  | FBinFun k ops => "(" +++ bfun_symbol k +++ " " +++ join " " (map show_form ops) +++ ")"
  | FBin k ops => "(" +++ bop_symbol k +++ " " +++ join " " (map show_form ops) +++ ")"
  | FNot g => "(not " +++ show_form g +++ ")"
  | FQuant q vs c =>
      "(" +++ quant_symbol q +++ " (" +++ join " " (map show_qvar vs) +++ ") " +++ show_form c
      +++ ")"
  | FWhen c e => "(when " +++ show_form c +++ " " +++ show_form e +++ ")"
  | FForall vs e =>
      "(forall (" +++ typed_parameters (map TVar vs) +++ ") " +++ show_form e +++ ")"
  end.

(** functions.py:231-233 *)
Definition show_metric (m : metric) : string := me_opt m +++ " " +++ show_form (me_expr m).

(** action.py:97-106 *)
Definition show_action (a : action) : string :=
  "(:action " +++ a_name a +++ nl
  +++ "    :parameters (" +++ typed_parameters (a_params a) +++ ")" +++ nl
  +++ match a_pre a with
      | Some f => "    :precondition " +++ show_form f +++ nl
      | None => ""
      end
  +++ match a_eff a with
      | Some f => "    :effect " +++ show_form f +++ nl
      | None => ""
      end
  +++ ")".

(** ** formatter.py *)

(** formatter.py:24-26 remove_empty_lines *)
Definition remove_empty_lines (s : string) : string :=
  join nl (filter (fun l => negb (blank l)) (map fst (splitlines s))).

(** formatter.py:29-57 sort_and_print_collection *)
Definition sort_and_print_collection (prefix : string) (items : list string) (postfix : string)
           (is_mandatory : bool) : string :=
  match items with
  | [] => if is_mandatory then prefix +++ postfix else ""
  | _ => prefix +++ join " " (sort_str items) +++ postfix
  end.

(** dict.setdefault(k, []).append(v) *)
Fixpoint group_add {V} (k : option string) (v : V) (d : list (option string * list V))
  : list (option string * list V) :=
  match d with
  | [] => [(k, [v])]
  | (k', vs) :: d' => if option_eqb String.eqb k k' then (k', vs ++ [v]) :: d'
                      else (k', vs) :: group_add k v d'
  end.
(** formatter.py:66-68, 78-80: the items of a dict grouped by type *)
Definition group_by {V} (l : list (option string * V)) : list (option string * list V) :=
  fold_left (fun d kv => group_add (fst kv) (snd kv) d) l [].

(** [d.get(k, [])] in formatter.py:140-185, 187-213 *)
Definition group_get {V} (k : option string) (d : list (option string * list V)) : list V :=
  match dict_get (option_eqb String.eqb) k d with Some vs => vs | None => [] end.

(** formatter.py:157-185: the while loop over [remaining].  The index scans [remaining] for the
    first parent that is not a subtype of something remaining ([allsubtypes] does not change
    during the scan); running past the end raises ValueError("Cycle in types").  [fuel] is the
    number of parents: one is removed per round. *)
Fixpoint print_remaining (fuel : nat) (s2s : list (option string * list string))
         (remaining : list string) : res string :=
  match remaining with
  | [] => Ok ""
  | _ =>
      match fuel with
      | O => Err ValueError
      | S fuel' =>
          let allsubtypes := flat_map (fun k => group_get (Some k) s2s) remaining in
          match find (fun k => negb (memb String.eqb k allsubtypes)) remaining with
          | None => Err ValueError
          | Some parent =>
              let line := "    " +++ join " " (sort_str (group_get (Some parent) s2s))
                          +++ " - " +++ parent +++ nl in
              let* rest := print_remaining fuel' s2s
                             (filter (fun k => negb (String.eqb k parent)) remaining) in
              Ok (line +++ rest)
          end
      end
  end.

(** formatter.py:145-158: the keys that are not None *)
Definition some_keys {V} (d : list (option string * V)) : list string :=
  flat_map (fun kv => match fst kv with Some k => [k] | None => [] end) d.

(** formatter.py:140-149: the types with no parent *)
Definition no_parents (s2s : list (option string * list string)) : list string :=
  let subtypes := flat_map snd s2s in
  let top := filter (fun k => negb (memb String.eqb k subtypes)) (some_keys s2s) in
  filter (fun k => negb (String.eqb k "object"))
    (dedup String.eqb (top ++ group_get None s2s ++ group_get (Some "object") s2s)).

(** formatter.py:125-185, 211-213 print_typed_lists, branch ":types" in prefix *)
Definition print_types (prefix : string) (s2s : list (option string * list string))
           (postfix : string) : res string :=
  let first := nl +++ "    " +++ join " " (sort_str (no_parents s2s)) +++ " - object" +++ nl in
  let remaining := sort_str (filter (fun k => negb (String.eqb k "object")) (some_keys s2s)) in
  let* rest := print_remaining (length remaining) s2s remaining in
  Ok (prefix +++ first +++ rest +++ postfix).

(** formatter.py:187-213 print_typed_lists, the other branch *)
Definition show_group {V} (to_string : V -> string) (kv : option string * list V) : string :=
  join " " (sort_str (map to_string (snd kv))) +++ " - "
  +++ match fst kv with Some t => t | None => "" end +++ " ".
(** formatter.py:187-213 print_typed_lists *)
Definition print_typed_lists {V} (to_string : V -> string) (prefix : string)
           (d : list (option string * list V)) (postfix : string) : string :=
  let untyped := group_get None d in
  let typed := filter (fun kv => match fst kv with Some _ => true | None => false end) d in
  let key kv := match fst kv with Some t => t | None => "" end in
  let result := prefix +++ " "
                +++ String.concat "" (map (show_group to_string)
                                          (sort_by (fun a b => str_lt (key a) (key b)) typed)) in
  match untyped with
  | [] => strip result +++ postfix
  | _ =>
      let result2 := result +++ join " " (sort_str (map to_string untyped)) in
      (if String.eqb result2 (prefix +++ " ") then prefix else result2) +++ postfix
  end.

(** formatter.py:59-71 print_types_or_functions_with_parents, for the types *)
Definition print_types_with_parents (types : types_dict) : res string :=
  match types with
  | [] => Ok ""
  | _ => print_types "(:types" (group_by (map (fun kv => (snd kv, fst kv)) types)) (")" +++ nl)
  end.

(** formatter.py:108-122 print_function_skeleton *)
Definition show_skeleton_arg (t : term) : string :=
  " ?" +++ t_name t +++ match sort_str (t_tags t) with [] => "" | g :: _ => " - " +++ g end.
(** formatter.py:108-122 print_function_skeleton *)
Definition function_skeleton (f : atom) : string :=
  match snd f with
  | [] => "(" +++ fst f +++ ")"
  | ts => "(" +++ fst f +++ String.concat "" (map show_skeleton_arg ts) +++ ")"
  end.

(** formatter.py:59-71 print_types_or_functions_with_parents, for the functions *)
Definition print_functions (fs : functions_dict) : string :=
  match fs with
  | [] => ""
  | _ => print_typed_lists function_skeleton "(:functions"
           (group_by (map (fun kv => (snd kv, fst kv)) fs)) (")" +++ nl)
  end.

(** formatter.py:74-83 print_constants *)
Definition print_constants (prefix : string) (cs : list const) : string :=
  match cs with
  | [] => ""
  | _ => print_typed_lists (fun n => n) prefix
           (group_by (map (fun c => (snd c, fst c)) cs)) (")" +++ nl)
  end.

(** formatter.py:86-105 print_predicates_with_types *)
Definition show_pred_arg (t : term) : string :=
  " ?" +++ t_name t
  +++ match sort_str (t_tags t) with
      | [] => ""
      | [g] => " - " +++ g
      | gs => " - (either " +++ join " " gs +++ ")"
      end.
(** formatter.py:90-104: one predicate *)
Definition show_pred_decl (p : atom) : string :=
  match snd p with
  | [] => "(" +++ fst p +++ ")" +++ " "
  | ts => "(" +++ fst p +++ String.concat "" (map show_pred_arg ts) +++ ") " +++ " "
  end.
(** predicates.py:111-115 Predicate.__lt__ *)
Definition atom_ltb (p q : atom) : bool := atom_lt (fst p) (snd p) (fst q) (snd q).
(** formatter.py:86-105 print_predicates_with_types *)
Definition print_predicates (ps : list atom) : string :=
  strip (String.concat "" (map show_pred_decl (sort_by atom_ltb ps))).

(** core.py:181-183 the lambda for a derived predicate *)
Definition show_derived (d : derived) : string :=
  "(:derived " +++ print_predicates [(dp_name d, dp_terms d)] +++ " " +++ show_form (dp_cond d)
  +++ ")" +++ nl.

(** core.py:161-191 Domain.__str__ *)
Definition domain_body (d : domain) : res string :=
  let* types := print_types_with_parents (d_types d) in
  Ok (sort_and_print_collection "(:requirements " (map req_str (d_reqs d)) (")" +++ nl) false
      +++ types
      +++ print_constants "(:constants" (d_constants d)
      +++ (match d_predicates d with
           | [] => ""
           | ps => "(:predicates " +++ print_predicates ps +++ ")" +++ nl
           end)
      +++ print_functions (d_functions d)
      +++ sort_and_print_collection "" (map show_derived (d_derived d)) "" false
      +++ sort_and_print_collection "" (map (fun a => show_action a +++ nl) (d_actions d)) ""
                                    false).
(** core.py:161-191 Domain.__str__ *)
Definition show_domain (d : domain) : res string :=
  let* body := domain_body d in
  Ok (remove_empty_lines
        ("(define (domain " +++ d_name d +++ ")" +++ nl +++ indent "    " body +++ nl +++ ")")).

(** core.py:377-392 Problem.__str__.  [bool(self.metric)] is True for a Metric object. *)
Definition problem_body (p : problem) : string :=
  "(:domain " +++ get_domain_name p +++ ")" +++ nl
  +++ sort_and_print_collection "(:requirements " (map req_str (get_requirements p)) (")" +++ nl)
                                false
  +++ print_constants "(:objects" (p_objects p)
  +++ sort_and_print_collection "(:init " (map show_form (p_init p)) (")" +++ nl) true
  +++ "(:goal " +++ show_form (p_goal p) +++ ")" +++ nl
  +++ match p_metric p with Some m => "(:metric " +++ show_metric m +++ ")" +++ nl | None => "" end.
(** core.py:377-392 Problem.__str__ *)
Definition show_problem (p : problem) : string :=
  remove_empty_lines
    ("(define (problem " +++ p_name p +++ ")" +++ nl +++ indent "    " (problem_body p) +++ nl
     +++ ")").

(** core.py:443-448 Plan._action_to_string, 454-459 Plan.__str__ *)
Definition show_step (st : string * list const) : string :=
  "(" +++ fst st +++ " " +++ join " " (map fst (snd st)) +++ ")".
(** core.py:454-459 Plan.__str__ *)
Definition show_plan (pl : plan) : string := join nl (map show_step pl).
