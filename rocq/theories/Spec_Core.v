(** Specification: substitution, well-formed hierarchies, well-typed domains and problems, plan
    steps, histories.  Nothing here models code. *)
From Coq Require Import String List Bool Relations.
From Verif Require Import Py Names Reqs Logic Validation Core Sem Spec Built Py_facts Ops_facts Built_facts Names_facts.
Import ListNotations.
Open Scope string_scope.
Open Scope list_scope.

(** ** Substitution *)
(** the term given to the variables named [n] *)
Fixpoint image (m : mapping) (n : string) : option term :=
  match m with
  | [] => None
  | (k, u) :: m' => if String.eqb (t_name k) n then Some u else image m' n
  end.
(** the state in which each mapped variable has the value of its image *)
Definition bind_env {I} (m : mapping) (e : env I) : env I :=
  fun n => match image m n with Some u => den I e u | None => e n end.

(** a variable of [f] named like a mapped one is the mapped one (same types) *)
Definition names_agree (m : mapping) (f : form) : Prop :=
  forall v, argument (TVar v) f -> forall k u, In (k, u) m -> t_name k = v_name v ->
    term_eqb (TVar v) k = true.
(** no quantifier of [f] binds a mapped variable or a variable of an image *)
Definition no_capture (m : mapping) (f : form) : Prop :=
  forall v, binds v f -> forall k u, In (k, u) m ->
    t_name k <> v_name v /\ (forall w, u = TVar w -> v_name w <> v_name v).
(** no arithmetic node gets two equal operands, or an operand of its own kind *)
Definition arith_kept (m : mapping) (f : form) : Prop :=
  forall k ops ops', within (FBinFun k ops) f -> arith k -> mapR (instantiate m) ops = Ok ops' ->
    NoDupE form_eqb ops' /\ Forall (fun g => is_fnode k g = false) ops'.

(** terms of one name have the same types *)
Definition consistent (S : term -> Prop) : Prop :=
  forall t u, S t -> S u -> t_name t = t_name u -> forall g, In g (t_tags t) <-> In g (t_tags u).


(** ** Hierarchies: legal names; [object] has no supertype, no type is its own ancestor *)
Definition types_legal (d : types_dict) : Prop :=
  (forall k v, In (k, v) d -> legal_type k) /\ (forall k p, supertype d k p -> legal_type p).
Definition hierarchy_ok (d : types_dict) : Prop :=
  (forall p, ~ supertype d "object" p) /\ (forall n, ~ clos_trans _ (supertype d) n n).

(** ** Well-typed actions, domains, problems *)
Definition opt_typed (types : types_dict) (rs : list req) (o : option form) : Prop := match o with Some f => form_typed types rs f | None => True end.
Definition action_typed (types : types_dict) (rs : list req) (a : action) : Prop :=
  (forall t, In t (a_params a) -> term_typed types rs t) /\ opt_typed types rs (a_pre a) /\ opt_typed types rs (a_eff a).

Definition domain_consistent (d : domain) : Prop :=
  (forall c, In c (d_constants d) -> term_typed (d_types d) (d_reqs d) (const_term c)) /\
  (forall p t, In p (d_predicates d) -> In t (snd p) -> term_typed (d_types d) (d_reqs d) t) /\
  (forall a, In a (d_actions d) -> a_pre a <> None /\ a_eff a <> None /\ action_typed (d_types d) (d_reqs d) a) /\
  (forall x t g, In x (d_derived d) -> In t (dp_terms x) -> In g (t_tags t) -> declared (d_types d) g).

Definition problem_typed (p : problem) (d : domain) : Prop :=
  (forall c, In c (p_objects p) -> term_typed (d_types d) (d_reqs d) (const_term c)) /\
  (forall f, In f (p_init p) -> form_typed (d_types d) (d_reqs d) f) /\
  form_typed (d_types d) (d_reqs d) (p_goal p).

(** ** Objects that come out of the constructors *)
Definition domain_built (d : domain) : Prop :=
  exists n rs ty cs ps dps fs acts, mk_domain n rs ty cs ps dps fs acts = Ok d.

(** problems obtained by construction and successful domain assignments *)
Inductive problem_reach : problem -> Prop :=
| PR_new n d dn rs objs init goal m p :
    (forall x, d = Some x -> domain_built x) ->
    mk_problem n d dn rs objs init goal m = Ok p -> problem_reach p
| PR_set p d p' : problem_reach p -> domain_built d -> set_domain p d = (p', Ok tt) -> problem_reach p'.

(** ** Actions and plans *)
Definition param_vars (a : action) (vs : list var) : Prop := a_params a = map TVar vs.
(** the terms that stand in the instantiated body: the given ones and those of the body that are
    not parameters *)
Definition body_terms (a : action) (t : term) : Prop :=
  exists f, (a_pre a = Some f \/ a_eff a = Some f) /\ argument t f.
Definition grounded_terms (a : action) (ts : list term) (t : term) : Prop :=
  In t ts \/ (body_terms a t /\ memb term_eqb t (a_params a) = false).

Definition body_ok (P : form -> Prop) (a : action) : Prop :=
  forall f, a_pre a = Some f \/ a_eff a = Some f -> P f.

Definition schema_ok (a : action) : Prop :=
  (exists vs, param_vars a vs) /\ legal_name (a_name a) /\ body_ok built a /\ body_ok plain a.

Definition known_step (d : domain) (p : problem) (st : string * list const) : Prop :=
  exists a, In a (d_actions d) /\ a_name a = fst st /\ length (a_params a) = length (snd st) /\
      forall c, In c (snd st) -> exists o, (In o (p_objects p) \/ In o (d_constants d)) /\ fst o = fst c.

