(** Model of parser objects used by several threads. *)
From Coq Require Import String List Bool.
From Verif Require Import Py Names Reqs Logic Validation Core Lexer TypedList Parser.
Import ListNotations.
Open Scope string_scope.
Open Scope list_scope.

(** A call of BaseParser.__call__ (parser/base.py:44-69) as a sequence of callbacks of its transformer
    (one object per parser, with attributes [X]: domain.py:66-76, problem.py:44-49).  Between two callbacks another thread may
    run.  Simplification for domains: a callback, and the callbacks of one condition or effect together, are not
    interrupted; sys.tracebacklimit is treated in Threads.v. *)
Inductive prog (X A : Type) : Type :=
| Done (r : res A)
| Step (f : X -> X) (k : X -> prog X A).
Arguments Done {X A} r.
Arguments Step {X A} f k.

(** one callback (domain.py:89-557) *)
Definition callback {X A} (m : X -> X * res A) : prog X A := Step (fun st => fst (m st)) (fun st => Done (snd (m st))).
(** callbacks in sequence: Lark calls them from left to right, children first (parser/base.py:64) *)
Fixpoint bindP {X A B} (p : prog X A) (k : A -> prog X B) : prog X B :=
  match p with
  | Done (Ok a) => k a
  | Done (Err e) => Done (Err e)
  | Step f k' => Step f (fun st => bindP (k' st) k)
  end.
(** callbacks for a repeated rule (grammar.lark:3) *)
Fixpoint mapP {X A B} (f : A -> prog X B) (l : list A) : prog X (list B) :=
  match l with
  | [] => Done (Ok [])
  | x :: xs => bindP (f x) (fun y => bindP (mapP f xs) (fun ys => Done (Ok (y :: ys))))
  end.
(** an optional section (grammar.lark:3) *)
Definition optP {A} (f : list sexp -> M A) (o : option (list sexp)) : prog dstate (option A) :=
  match o with
  | Some l => bindP (callback (f l)) (fun a => Done (Ok (Some a)))
  | None => Done (Ok None)
  end.

(** grammar.lark:23 action_def; domain.py:155-165, 222-227 *)
Definition action_prog (l : list sexp) : prog dstate action :=
  match l with
  | SAtom (TWord n) :: k :: SList ps :: body =>
      if is_kw ":parameters" k then
        bindP (callback (action_parameters ps)) (fun vars =>
        bindP (callback (reads (action_body body))) (fun b =>
        Done (mk_action n vars (Some (fst b)) (Some (snd b)))))
      else Done syntax
  | _ => Done syntax
  end.
(** grammar.lark:26 derived_predicates; domain.py:167-220 *)
Definition derived_prog (l : list sexp) : prog dstate derived :=
  match l with
  | [h; x] =>
      bindP (Done (atomic_formula_skeleton h)) (fun head =>
      bindP (callback (reads (fun st => gd (domain_ctx st) x))) (fun cond =>
      callback (reads (fun st => derived_callback st head cond))))
  | _ => Done syntax
  end.
(** grammar.lark:22 structure_def *)
Definition structure_prog (s : sexp) : prog dstate (action + derived) :=
  match s with
  | SList (k :: body) =>
      if is_kw ":action" k then bindP (action_prog body) (fun a => Done (Ok (inl a)))
      else if is_kw ":derived" k then bindP (derived_prog body) (fun d => Done (Ok (inr d)))
      else Done syntax
  | _ => Done syntax
  end.
(** grammar.lark:3 domain; domain.py:89-105 domain *)
Definition domain_prog (n : string) (l0 : list sexp) : prog dstate domain :=
  let '(o1, l1) := section ":requirements" l0 in
  bindP (optP requirements o1) (fun rs =>
  let '(o2, l2) := section ":types" l1 in
  bindP (optP types_section o2) (fun ty =>
  let '(o3, l3) := section ":constants" l2 in
  bindP (optP constants_section o3) (fun cs =>
  let '(o4, l4) := section ":predicates" l3 in
  bindP (optP predicates_section o4) (fun ps =>
  let '(o5, l5) := section ":functions" l4 in
  bindP (optP (fun l => ret (functions_section l)) o5) (fun fs =>
  bindP (mapP structure_prog l5) (fun xs =>
  let acts := flat_map (fun x => match x with inl a => [a] | inr _ => [] end) xs in
  let dps := flat_map (fun x => match x with inl _ => [] | inr d => [d] end) xs in
  bindP (callback (modify (set_types None))) (fun _ =>
  Done (mk_domain n (opt_list rs) ty (opt_list cs) (opt_list ps) dps (opt_list fs) acts)))))))).
(** parser/base.py:44-69 DomainParser.__call__ *)
Definition parse_prog (s : string) : prog dstate domain :=
  match read_text s with
  | Some [SList (SAtom (TWord k1) :: SList [SAtom (TWord k2); SAtom (TWord n)] :: secs)] =>
      if String.eqb k1 "define" && String.eqb k2 "domain" then domain_prog n secs else Done syntax
  | _ => Done syntax
  end.

(** a call without interruption (parser/base.py:44-69) *)
Fixpoint alone {X A} (p : prog X A) (st : X) : X * res A :=
  match p with Done r => (st, r) | Step f k => alone (k st) (f st) end.

(** not in the code: the [i]-th element replaced *)
Fixpoint put {A} (i : nat) (x : A) (l : list A) : list A :=
  match i, l with
  | O, _ :: l => x :: l
  | S i, y :: l => y :: put i x l
  | _, [] => []
  end.
(** the [i]-th thread runs its next callback; the threads share one parser (domain.py:66-76) *)
Definition shared_step {X A} (w : X * list (prog X A)) (i : nat) : X * list (prog X A) :=
  match nth_error (snd w) i with
  | Some (Step f k) => (f (fst w), put i (k (fst w)) (snd w))
  | _ => w
  end.
(** the same when every thread has its own parser (domain.py:66-76) *)
Definition own_step {X A} (w : list (X * prog X A)) (i : nat) : list (X * prog X A) :=
  match nth_error w i with
  | Some (st, Step f k) => put i (f st, k st) w
  | _ => w
  end.
(** a schedule: which thread runs next (Python's switching between threads) *)
Definition run_shared (sched : list nat) (texts : list string) : dstate * list (prog dstate domain) :=
  fold_left shared_step sched (init_dstate, map parse_prog texts).
(** a schedule for threads with parsers of their own *)
Definition run_own (sched : list nat) (texts : list string) : list (dstate * prog dstate domain) :=
  fold_left own_step sched (map (fun s => (init_dstate, parse_prog s)) texts).

(** ** Problem parsers *)
(** The attribute _objects_by_name of a ProblemTransformer (problem.py:49); the attributes of its
    _domain_transformer are never assigned.  Here each access of the attribute is one step. *)
Definition ostate := list (string * const).
(** [self._objects_by_name.get(x)] in problem.py:157-161: one read for the test, another for the value;
    [None] as a term when the second one finds nothing *)
Definition object_prog (x : string) : prog ostate (option term) :=
  Step (fun d => d) (fun d =>
    match dict_get String.eqb x d with
    | None => Done (let* c := mk_const x None in Ok (Some c))
    | Some _ => Step (fun d => d) (fun d => Done (Ok (match dict_get String.eqb x d with Some k => Some (const_term k) | None => None end)))
    end).
(** not in the code: the terms before the first [None] *)
Fixpoint present (ts : list (option term)) : list term :=
  match ts with Some t :: ts => t :: present ts | _ => [] end.
(** predicates.py:50-54, 26-42 Predicate.__init__ when a term may be None, which has no attribute [name] *)
Definition pred_some (n : string) (ts : list (option term)) : res form :=
  let* p := mk_pred n (present ts) in
  if forallb (fun o => match o with Some _ => true | None => false end) ts then Ok p else Err AttributeError.
(** problem.py:148-164 atomic_formula_name *)
Definition atom_prog (s : sexp) : prog ostate form :=
  match s with
  | SList (SAtom (TWord n) :: args) =>
      bindP (Done (of_opt (mapO word args))) (fun ns =>
      bindP (mapP object_prog ns) (fun ts => Done (pred_some n ts)))
  | _ => Done syntax
  end.
(** grammar.lark:115-119 init_el, literal_name; problem.py:109-129 *)
Definition init_prog (s : sexp) : prog ostate form :=
  match s with
  | SList (SAtom (TOp o) :: args) => Done (init_el [] s)
  | SList (SAtom (TWord w) :: args) =>
      if String.eqb w "not" then
        match args with
        | [x] => bindP (atom_prog x) (fun f => Done (Ok (mk_not f)))
        | _ => Done syntax
        end
      else atom_prog s
  | _ => Done syntax
  end.
(** problem.py:76-82 objects: the attribute is assigned, then read again for the list *)
Definition objects_prog (l : list sexp) : prog ostate (list const) :=
  bindP (Done (objects_section l)) (fun d =>
  Step (fun _ => d) (fun _ => Step (fun d => d) (fun d => Done (Ok (map snd d))))).
(** grammar.lark:107 problem; problem.py:55-62, 72-74, 100-107, 139-141 *)
Definition problem_prog (n dn : string) (l0 : list sexp) : prog ostate problem :=
  let '(o1, l1) := section ":requirements" l0 in
  bindP (Done (opt_res require_keys o1)) (fun rs =>
  let '(o2, l2) := section ":objects" l1 in
  bindP (match o2 with Some l => objects_prog l | None => Done (Ok []) end) (fun os =>
  match section ":init" l2 with
  | (Some inits, l3) =>
      bindP (mapP init_prog inits) (fun init =>
      match section ":goal" l3 with
      | (Some [g], l4) =>
          bindP (Done (gd problem_ctx g)) (fun goal =>
          let '(o5, l5) := section ":metric" l4 in
          bindP (Done (opt_res metric_spec o5)) (fun m =>
          match l5 with
          | [] => Done (mk_problem n None (Some dn) rs os init (Some goal) m)
          | _ => Done syntax
          end))
      | _ => Done syntax
      end)
  | (None, _) => Done syntax
  end)).
(** parser/base.py:44-69 ProblemParser.__call__ *)
Definition parse_problem_prog (s : string) : prog ostate problem :=
  match read_text s with
  | Some [SList (SAtom (TWord k1) :: SList [SAtom (TWord k2); SAtom (TWord n)]
            :: SList [k3; SAtom (TWord dn)] :: secs)] =>
      if String.eqb k1 "define" && String.eqb k2 "problem" && is_kw ":domain" k3
      then problem_prog n dn secs else Done syntax
  | _ => Done syntax
  end.
(** threads with one ProblemParser (problem.py:44-49), under a schedule *)
Definition run_shared_problems (sched : list nat) (texts : list string) : ostate * list (prog ostate problem) :=
  fold_left shared_step sched ([], map parse_problem_prog texts).
(** threads with ProblemParsers of their own (problem.py:44-49) *)
Definition run_own_problems (sched : list nat) (texts : list string) : list (ostate * prog ostate problem) :=
  fold_left own_step sched (map (fun s => ([], parse_problem_prog s)) texts).

(** ** Interrupted calls *)
(** A call of BaseParser.__call__ (parser/base.py:44-69) of which only [k] steps happen, because of a
    KeyboardInterrupt for instance: the attributes it leaves, and the rest of the call *)
Fixpoint interrupted {X A} (k : nat) (p : prog X A) (st : X) : X * prog X A :=
  match k, p with
  | S k, Step f c => interrupted k (c st) (f st)
  | _, _ => (st, p)
  end.
(** the attributes of a DomainParser (domain.py:66-76) after calls that were interrupted after so many steps *)
Definition after_interrupted (h : list (string * nat)) (st : dstate) : dstate :=
  fold_left (fun st c => fst (interrupted (snd c) (parse_prog (fst c)) st)) h st.
(** the attribute of a ProblemParser (problem.py:44-49) after such calls *)
Definition after_interrupted_problems (h : list (string * nat)) (d : ostate) : ostate :=
  fold_left (fun d c => fst (interrupted (snd c) (parse_problem_prog (fst c)) d)) h d.
