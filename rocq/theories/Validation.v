(** Model of pddl/action.py (data, equality, instantiation), helpers/base.py:find_cycle and
    pddl/_validation.py. *)
From Coq Require Import String List Bool NArith ZArith.
From Verif Require Import Py Names Reqs Logic.
Import ListNotations.
Open Scope string_scope.
Open Scope list_scope.

(** * find_cycle (helpers/base.py:173-193) *)

(** a graph: dict from node to None or a set of neighbours *)
Definition graph := list (string * option (list string)).

(** helpers/base.py:173-193 find_cycle: its local variables *)
Record fc_state : Type := mkFc {
  fc_todo : list string;                      (* keys still to be visited by the for loop *)
  fc_stack : list (string * list string);     (* top of the Python stack first *)
  fc_visited : list string
}.

(** one iteration of the while loop, or of the for loop when the stack is empty *)
Definition fc_step (g : graph) (s : fc_state) : fc_state + option (list string) :=
  match fc_stack s with
  | (current, path) :: st =>
      if memb String.eqb current path then inr (Some path)
      else
        let visited := current :: fc_visited s in
        let pushed := match dict_get String.eqb current g with
                      | Some (Some ns) => rev (map (fun n => (n, path ++ [current])) ns)
                      | _ => []
                      end in
        inl (mkFc (fc_todo s) (pushed ++ st) visited)
  | [] =>
      match fc_todo s with
      | [] => inr None
      | n :: ns =>
          if memb String.eqb n (fc_visited s) then inl (mkFc ns [] (fc_visited s))
          else inl (mkFc ns [(n, [])] (fc_visited s))
      end
  end.

(** not in the code: the nodes of the graph, to bound the loop of helpers/base.py:173-193 *)
Definition fc_nodes (g : graph) : list string :=
  flat_map (fun kv => fst kv :: match snd kv with Some ns => ns | None => [] end) g.
(** not in the code: the largest number of neighbours *)
Definition fc_degree (g : graph) : nat :=
  fold_right (fun kv n => Nat.max (match snd kv with Some ns => length ns | None => 0 end) n) 0 g.

(** log2 of a number of iterations that is always enough (Validation_facts.find_cycle_done) *)
Definition fc_bound (g : graph) : nat :=
  (length (dedup String.eqb (fc_nodes g)) + 3) * (S (Nat.log2 (fc_degree g + 2)))
  + S (Nat.log2 (length g + 2)).

(** [Some r]: the call returns [r] within 2^n iterations *)
Definition find_cycle_run (n : nat) (g : graph) : option (option (list string)) :=
  match loop (fc_step g) n (mkFc (map fst g) [] []) with
  | inr r => Some r
  | inl _ => None
  end.
(** helpers/base.py:173-193 find_cycle *)
Definition find_cycle (g : graph) : option (list string) :=
  match find_cycle_run (fc_bound g) g with Some r => r | None => None end.

(** * Types (_validation.py:86-187) *)
Definition types_dict := list (string * option string).

(** _validation.py:113-119 _get_all_types (the order is irrelevant: it is a set) *)
Definition all_types (d : types_dict) : list string :=
  dedup String.eqb
    (map fst d ++ flat_map (fun kv => match snd kv with Some p => [p] | None => [] end) d).

(** _validation.py:121-187 _check_types_dictionary *)
Definition types_graph (d : types_dict) : graph :=
  map (fun kv => (fst kv, Some (match snd kv with Some p => [p] | None => [] end))) d.

(** _validation.py:121-187 _check_types_dictionary *)
Definition check_types_dictionary (d : types_dict) (rs : list req) : res unit :=
  match d with
  | [] => Ok tt
  | _ =>
      let supertypes := flat_map (fun kv => match snd kv with Some p => [p] | None => [] end) d in
      if negb (Nat.eqb (length supertypes) 0) && negb (has TYPING rs)
      then Err PDDLValidationError
      else
        match dict_get String.eqb "object" d with
        | Some (Some _) => Err PDDLValidationError
        | _ =>
            match find_cycle (types_graph d) with
            | Some _ => Err PDDLValidationError
            | None => Ok tt
            end
        end
  end.

(** _validation.py:89-101 Types.__init__; [None] is the default argument *)
Definition mk_types (d : option types_dict) (rs : list req) (skip_checks : bool)
  : res types_dict :=
  let* t := to_types (match d with Some d => d | None => [] end) in
  (if skip_checks then Ok tt else check_types_dictionary t rs) ;; Ok t.

(** * Action (action.py:24-127) *)
Record action : Type := mkAction {
  a_name : string;
  a_params : list term;
  a_pre : option form;
  a_eff : option form
}.

(** action.py:27-45 *)
Definition mk_action (n : string) (ps : list term) (pre eff : option form) : res action :=
  let* n' := parse_name n in Ok (mkAction n' ps pre eff).

(** action.py:108-116 *)
Definition action_eqb (a b : action) : bool :=
  String.eqb (a_name a) (a_name b) && list_eqb term_eqb (a_params a) (a_params b)
  && option_eqb form_eqb (a_pre a) (a_pre b) && option_eqb form_eqb (a_eff a) (a_eff b).

(** action.py:118-120 *)
Definition action_hash (H : hashes) (a : action) : Z :=
  let oh o := match o with Some f => form_hash H f | None => h_none H end in
  h_tuple H [h_str H (a_name a); h_tuple H (map (term_hash H) (a_params a));
             oh (a_pre a); oh (a_eff a)].

(** action.py:89-94: precondition and effect may be None *)
Definition inst_opt (m : mapping) (o : option form) : res (option form) :=
  match o with
  | None => Ok None
  | Some f => let* g := instantiate m f in Ok (Some g)
  end.

(** action.py:72-95 Action.instantiate *)
Definition action_instantiate (a : action) (ts : list term) : res action :=
  check (Nat.eqb (length ts) (length (a_params a))) ValueError ;;
  let m := dict_of_list term_eqb (combine (a_params a) ts) in
  let* pre := inst_opt m (a_pre a) in
  let* eff := inst_opt m (a_eff a) in
  mk_action (a_name a) ts pre eff.

(** * TypeChecker (_validation.py:190-309) *)

(** _validation.py:200-204 has_typing *)
Definition has_typing (rs : list req) : bool := has TYPING (extend_reqs rs).

Section TypeChecker.
  Variables (types : types_dict) (rs : list req).

  (** _validation.py:206-220, 233-237: check_type on a Term *)
  Definition check_term (t : term) : res unit :=
    check (has_typing rs || Nat.eqb (length (t_tags t)) 0) PDDLValidationError ;;
    check (subset String.eqb (t_tags t) (all_types types)) PDDLValidationError.

  (** check_type on a collection of terms / variables *)
  Definition check_terms (ts : list term) : res unit := iterR check_term ts.
  (** _validation.py:227-231 check_type on a collection of variables *)
  Definition check_vars (vs : list var) : res unit := iterR (fun v => check_term (TVar v)) vs.

  (** _validation.py:239-302 check_type on formulas and effects *)
  Fixpoint check_form (f : form) : res unit :=
    match f with
    | FPred _ ts => check_terms ts
    | FEq l r => check_term l ;; check_term r
    | FNumFun _ ts => check_terms ts
    | FNumVal _ => Ok tt
    | FBinFun _ ops => iterR check_form ops
    | FBin _ ops => iterR check_form ops
    | FNot g => check_form g
    | FQuant _ vs c => check_vars vs ;; check_form c
    | FWhen c e => check_form c ;; check_form e
    | FForall vs e => check_vars vs ;; check_form e
    end.

  (** _validation.py:222-225: check_type(None) has no handler *)
  Definition check_opt (o : option form) : res unit :=
    match o with Some f => check_form f | None => Err NotImplementedError end.

  (** _validation.py:304-309 *)
  Definition check_action (a : action) : res unit :=
    check_terms (a_params a) ;; check_opt (a_pre a) ;; check_opt (a_eff a).

  (** _validation.py:49-83: the tags of the terms are available types *)
  Definition check_has_terms (tss : list (list term)) : res unit :=
    check (forallb (forallb (fun t => subset String.eqb (t_tags t) (all_types types))) tss)
          PDDLValidationError.
End TypeChecker.

(** * Functions (_validation.py:312-375).  A key is a NumericFunction: name and terms. *)
Definition atom := (string * list term)%type.
(** predicates.py:99-105, functions.py:95-101 __eq__ *)
Definition atom_eqb (a b : atom) : bool :=
  String.eqb (fst a) (fst b) && list_eqb term_eqb (snd a) (snd b).
(** _validation.py:312-330 the dict of Functions: function to None or a type name *)
Definition functions_dict := list (atom * option string).

(** _validation.py:346-375 _check_total_cost *)
Definition check_total_cost (d : functions_dict) (rs : list req) : res unit :=
  match d with
  | [] => Ok tt
  | _ =>
      if existsb (fun kv => String.eqb (fst (fst kv)) "total-cost") d then
        check (has ACTION_COSTS rs) PDDLValidationError ;;
        if existsb (fun kv => negb (String.eqb (fst (fst kv)) "total-cost")) d
        then check (has NUMERIC_FLUENTS (extend_reqs rs)) PDDLValidationError
        else Ok tt
      else check (has NUMERIC_FLUENTS (extend_reqs rs)) PDDLValidationError
  end.
