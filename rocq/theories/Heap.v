(** Model of who holds which collection: the containers that the constructors of pddl/core.py
    receive, keep and hand out.

    Containers (lists, sets, dicts, frozensets) live in a store and are referred to by number.
    Terms, formulas, predicates, derived predicates and actions are plain values here: their
    attributes are tuples, frozensets and strings (terms.py:45, predicates.py:54, base.py:62-67,
    201, action.py:46), so that nothing can be changed through them.  The order of elements of
    a set is that of its list.  Python's [frozenset(x)] is [x] itself if [x] is a frozenset
    already; here it is always a new container, which only the operator [is] could tell. *)
From Coq Require Import String List Bool.
From Verif Require Import Py Names Reqs Logic Validation Core Parser.
Import ListNotations.
Open Scope list_scope.

(** what a container holds (core.py:51-63, 197-208, 398); the steps of a plan refer to lists of constants *)
Inductive content : Type :=
| VReqs (l : list req)
| VTypes (d : types_dict)
| VConsts (l : list const)
| VAtoms (l : list atom)
| VDerived (l : list derived)
| VFuns (d : functions_dict)
| VActs (l : list action)
| VForms (l : list form)
| VSteps (l : list (string * nat)).
(** a frozenset or tuple cannot be changed (helpers/base.py:63-72) *)
Record cell : Type := mkCell { c_frozen : bool; c_val : content }.
(** all containers of the program that uses core.py:48-459; its own and those of the objects *)
Definition heap := list cell.

(** reading a container: the attribute accesses of core.py:107-145, 335-361, 404-407 *)
Definition val_at (h : heap) (a : nat) : option content := option_map c_val (nth_error h a).
(** core.py:112-115, 335-341 *)
Definition reqs_at (h : heap) (a : nat) : option (list req) := match val_at h a with Some (VReqs l) => Some l | _ => None end.
(** core.py:142-145 *)
Definition types_at (h : heap) (a : nat) : option types_dict := match val_at h a with Some (VTypes l) => Some l | _ => None end.
(** core.py:117-120, 343-346 *)
Definition consts_at (h : heap) (a : nat) : option (list const) := match val_at h a with Some (VConsts l) => Some l | _ => None end.
(** core.py:122-125 *)
Definition atoms_at (h : heap) (a : nat) : option (list atom) := match val_at h a with Some (VAtoms l) => Some l | _ => None end.
(** core.py:132-135 *)
Definition derived_at (h : heap) (a : nat) : option (list derived) := match val_at h a with Some (VDerived l) => Some l | _ => None end.
(** core.py:127-130 *)
Definition funs_at (h : heap) (a : nat) : option functions_dict := match val_at h a with Some (VFuns l) => Some l | _ => None end.
(** core.py:137-140 *)
Definition acts_at (h : heap) (a : nat) : option (list action) := match val_at h a with Some (VActs l) => Some l | _ => None end.
(** core.py:348-351 *)
Definition forms_at (h : heap) (a : nat) : option (list form) := match val_at h a with Some (VForms l) => Some l | _ => None end.
(** core.py:404-407 *)
Definition steps_at (h : heap) (a : nat) : option (list (string * nat)) := match val_at h a with Some (VSteps l) => Some l | _ => None end.

(** * The objects (core.py:78-85, 219-232, 402): what their attributes refer to *)
Record dobj : Type := mkDobj {
  o_name : string; o_reqs : nat; o_types : nat; o_consts : nat; o_preds : nat; o_derived : nat; o_funs : nat; o_acts : nat
}.
(** core.py:219-232 *)
Record pobj : Type := mkPobj {
  q_name : string; q_dom : option nat; q_dname : string; q_reqs : option nat; q_objs : nat; q_init : nat;
  q_goal : form; q_metric : option metric
}.
(** everything there is, of core.py:48-459: containers, domains, problems, plans *)
Record store : Type := mkStore { cells : heap; doms : list dobj; probs : list pobj; plans : list nat }.

(** what the properties return now (core.py:107-145): the containers' present contents *)
Definition view_dobj (h : heap) (o : dobj) : option domain :=
  match reqs_at h (o_reqs o), types_at h (o_types o), consts_at h (o_consts o), atoms_at h (o_preds o),
        derived_at h (o_derived o), funs_at h (o_funs o), acts_at h (o_acts o) with
  | Some rs, Some ty, Some cs, Some ps, Some dps, Some fs, Some acts => Some (mkDomain (o_name o) rs ty cs ps dps fs acts)
  | _, _, _, _, _, _, _ => None
  end.
(** core.py:107-145, of the i-th domain *)
Definition view_domain (st : store) (i : nat) : option domain :=
  match nth_error (doms st) i with Some o => view_dobj (cells st) o | None => None end.
(** an attribute that may be None (core.py:220-226) *)
Definition optional {A B} (f : A -> option B) (x : option A) : option (option B) :=
  match x with None => Some None | Some a => option_map Some (f a) end.
(** core.py:308-361 *)
Definition view_pobj (st : store) (q : pobj) : option problem :=
  match optional (view_domain st) (q_dom q), optional (reqs_at (cells st)) (q_reqs q),
        consts_at (cells st) (q_objs q), forms_at (cells st) (q_init q) with
  | Some d, Some rs, Some cs, Some fs => Some (mkProblem (q_name q) d (q_dname q) rs cs fs (q_goal q) (q_metric q))
  | _, _, _, _ => None
  end.
(** core.py:308-361, of the i-th problem *)
Definition view_problem (st : store) (i : nat) : option problem :=
  match nth_error (probs st) i with Some q => view_pobj st q | None => None end.
(** core.py:404-407 *)
Definition view_steps (h : heap) (l : list (string * nat)) : option plan :=
  mapO (fun s => option_map (fun cs => (fst s, cs)) (consts_at h (snd s))) l.
(** core.py:404-407, of the i-th plan *)
Definition view_plan (st : store) (i : nat) : option plan :=
  match nth_error (plans st) i with
  | Some a => match steps_at (cells st) a with Some l => view_steps (cells st) l | None => None end
  | None => None
  end.

(** * What a program does with core.py:51-63, 197-208, 319-324, 398-402 *)
Inductive op : Type :=
| ONew (c : cell)                                   (* make a container *)
| OWrite (a : nat) (v : content)                    (* change a container in place *)
| ODomain (n : string) (rs ty cs ps dps fs acts : option nat)
| OParse (s : string)                               (* DomainParser()(s) *)
| OProblem (n : string) (d : option nat) (dn : option string) (rs objs init : option nat) (g : option form) (m : option metric)
| OSetDomain (i j : nat)                            (* problem i: p.domain = domain j *)
| OPlan (a : nat).

(** an argument that may be left out (helpers/base.py:63-72, :56-58) *)
Definition arg {A} (f : nat -> option (list A)) (x : option nat) : option (list A) :=
  match x with None => Some [] | Some a => f a end.

(** the store in which a new Domain was made: every collection is copied into a new frozenset
    (helpers/base.py:63-72), the types into a new dict (custom_types.py:108-113), and the functions
    are the argument itself (_validation.py:322) or a new dict *)
Definition add_domain (st : store) (d : domain) (fs : option nat) : store :=
  let h := cells st in
  let k := length h in
  let new := [mkCell true (VReqs (d_reqs d)); mkCell false (VTypes (d_types d)); mkCell true (VConsts (d_constants d));
              mkCell true (VAtoms (d_predicates d)); mkCell true (VDerived (d_derived d)); mkCell true (VActs (d_actions d));
              mkCell false (VFuns (d_functions d))] in
  let f := match fs with Some a => a | None => k + 6 end in
  mkStore (h ++ new) (doms st ++ [mkDobj (d_name d) k (k + 1) (k + 2) (k + 3) (k + 4) f (k + 5)]) (probs st) (plans st).

(** core.py:51-87 Domain.__init__; nothing happens to the store when it raises *)
Definition do_domain (st : store) (n : string) (rs ty cs ps dps fs acts : option nat) : store :=
  let h := cells st in
  match arg (reqs_at h) rs, optional (types_at h) ty, arg (consts_at h) cs, arg (atoms_at h) ps, arg (derived_at h) dps,
        arg (funs_at h) fs, arg (acts_at h) acts with
  | Some rs', Some ty', Some cs', Some ps', Some dps', Some fs', Some acts' =>
      match mk_domain n rs' ty' cs' ps' dps' fs' acts' with
      | Ok d => add_domain st d fs
      | Err _ => st
      end
  | _, _, _, _, _, _, _ => st
  end.

(** core.py:197-238 Problem.__init__; core.py:263-285: the requirements are None, those of the
    domain, or a new set, which is not a frozenset *)
Definition do_problem (st : store) (n : string) (d : option nat) (dn : option string) (rs objs init : option nat)
           (g : option form) (m : option metric) : store :=
  let h := cells st in
  match optional (view_domain st) d, optional (reqs_at h) rs, arg (consts_at h) objs, arg (forms_at h) init with
  | Some d', Some rs', Some objs', Some init' =>
      match mk_problem n d' dn rs' objs' init' g m with
      | Ok p =>
          let k := length h in
          let rq := match d with
                    | Some i => option_map o_reqs (nth_error (doms st) i)
                    | None => match rs with Some _ => Some (k + 2) | None => None end
                    end in
          let own := match p_reqs p with Some l => l | None => [] end in
          mkStore (h ++ [mkCell true (VConsts (p_objects p)); mkCell true (VForms (p_init p)); mkCell false (VReqs own)])
                  (doms st)
                  (probs st ++ [mkPobj (p_name p) d (p_domain_name p) rq k (k + 1) (p_goal p) (p_metric p)])
                  (plans st)
      | Err _ => st
      end
  | _, _, _, _ => st
  end.

(** replace the n-th element (an assignment to an attribute, core.py:319-324) *)
Fixpoint put {A} (l : list A) (n : nat) (x : A) : list A :=
  match l, n with
  | [], _ => []
  | _ :: l', O => x :: l'
  | y :: l', S n' => y :: put l' n' x
  end.

(** one statement of the program; a container that is frozen stays as it is *)
Definition do_op (st : store) (o : op) : store :=
  match o with
  | ONew c => mkStore (cells st ++ [c]) (doms st) (probs st) (plans st)
  | OWrite a v =>
      match nth_error (cells st) a with
      | Some c => if c_frozen c then st else mkStore (put (cells st) a (mkCell false v)) (doms st) (probs st) (plans st)
      | None => st
      end
  | ODomain n rs ty cs ps dps fs acts => do_domain st n rs ty cs ps dps fs acts
  | OParse s => match parse_domain_fresh s with Ok d => add_domain st d None | Err _ => st end
  | OProblem n d dn rs objs init g m => do_problem st n d dn rs objs init g m
  | OSetDomain i j =>                                 (* core.py:319-324 *)
      match nth_error (probs st) i, nth_error (doms st) j with
      | Some q, Some o =>
          mkStore (cells st) (doms st)
                  (put (probs st) i (mkPobj (q_name q) (Some j) (o_name o) (q_reqs q) (q_objs q) (q_init q) (q_goal q) (q_metric q)))
                  (plans st)
      | _, _ => st
      end
  | OPlan a =>                                        (* core.py:398-402 *)
      match steps_at (cells st) a with
      | Some _ => mkStore (cells st) (doms st) (probs st) (plans st ++ [a])
      | None => st
      end
  end.
(** a whole program that uses core.py *)
Definition program (ops : list op) (st : store) : store := fold_left do_op ops st.
(** before anything of core.py:48-459 exists *)
Definition empty_store : store := mkStore [] [] [] [].
