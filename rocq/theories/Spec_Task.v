(** Specification: the solutions of a planning task, read off the texts of the domain, the problem
    and the plan.  Nothing here uses the library's functions. *)
From Coq Require Import String List Bool QArith.
From Verif Require Import Logic Lexer Sem Spec_Parse Spec_Numbers Spec_Meaning Spec_Effect Spec_Declared Spec_Execute.
Import ListNotations.
Open Scope string_scope.
Open Scope list_scope.
Close Scope Q_scope.

(** [o] has one of the types [gs], or there are none *)
Definition of_types (I : interp) (gs : list string) (o : obj I) : Prop :=
  gs = [] \/ exists g, In g gs /\ i_type I g o.
(** variables with their types *)
Definition lists_vars (vs : list sexp) (l : list (string * list string)) : Prop :=
  exists groups tail, written_vars vs groups tail /\ l = assigned groups tail.

Section Domain.
  Variable sections : list sexp.

  (** [(:action an :parameters (ps) :precondition x :effect y)] *)
  Definition has_action (an : string) (ps : list sexp) (x y : sexp) : Prop :=
    In (section_sx ":action" [name_sx an; SAtom (TKw ":parameters"); SList ps;
          SAtom (TKw ":precondition"); x; SAtom (TKw ":effect"); y]) sections.
  (** [(:derived (n vs) x)] *)
  Definition has_rule (n : string) (vs : list sexp) (x : sexp) : Prop :=
    In (section_sx ":derived" [SList (name_sx n :: vs); x]) sections.

  (** the objects that [e] gives to the variables of a head have the types written there, or those
      of the declaration of the predicate where none are written *)
  Definition head_fits (I : interp) (n : string) (l : list (string * list string)) (e : env I) : Prop :=
    exists declared, declares_predicate sections n declared
      /\ Forall2 (fun v w => of_types I (match snd v with [] => snd w | gs => gs end) (e (fst v)))
           l declared.
  Definition text_closed (I : interp) (P : string -> list (obj I) -> Prop) : Prop :=
    (forall n os, i_pred I n os -> P n os)
    /\ forall n vs x l e, has_rule n vs x -> lists_vars vs l -> head_fits I n l e ->
         says (with_facts I P) e x -> P n (map (fun v => e (fst v)) l).
  Definition text_completed (I J : interp) : Prop :=
    exists P, J = with_facts I P /\ forall n os, P n os <-> forall R, text_closed I R -> R n os.

  Variable next : forall I J : interp, changes J -> interp -> Prop.
  Definition text_executes (I : interp) (st : string * list string) (I' : interp) : Prop :=
    exists ps x y l J e D, has_action (fst st) ps x y /\ lists_vars ps l
      /\ text_completed I J /\ Forall2 (fun v c => e (fst v) = i_const J c) l (snd st)
      /\ says J e x /\ does J e y D /\ next I J D I'.
  Inductive text_runs : interp -> list (string * list string) -> interp -> Prop :=
  | trun_end I : text_runs I [] I
  | trun_step I st I' pl I'' : text_executes I st I' -> text_runs I' pl I'' ->
      text_runs I (st :: pl) I''.
  Definition text_fitting (I : interp) (pl : list (string * list string)) : Prop :=
    forall st, In st pl -> exists ps x y l, has_action (fst st) ps x y /\ lists_vars ps l
      /\ Forall2 (fun v c => of_types I (snd v) (i_const I c)) l (snd st).
  Definition text_reached (goal : sexp) (I : interp) : Prop :=
    exists J, text_completed I J /\ forall e, says J e goal.

  (** the listed facts are the true ones, the listed values those of the functions *)
  Definition text_starts (inits : list sexp) (I : interp) : Prop :=
    (forall n os, i_pred I n os <-> exists cs,
       In (SList (name_sx n :: map name_sx cs)) inits /\ os = map (i_const I) cs)
    /\ (forall n cs x s q, In (SList [SAtom (TOp "="); x; SAtom (TNum s)]) inits ->
          function_term n (map name_sx cs) x -> numeral s q ->
          (i_func I n (map (i_const I) cs) == q)%Q).

  Definition text_solves (inits : list sexp) (goal : sexp) (I : interp)
      (pl : list (string * list string)) : Prop :=
    text_starts inits I /\ text_fitting I pl
    /\ exists I', text_runs I pl I' /\ text_reached goal I'.

  (** no parameter and no variable of a head is repeated, no predicate is declared in two ways, no
      condition or effect is [()], and the arithmetic and the effects repeat nothing (C47, C48) *)
  Definition clear_text : Prop :=
    (forall an ps x y, has_action an ps x y ->
       (forall l, lists_vars ps l -> NoDup (map fst l))
       /\ x <> SList [] /\ plain_arithmetic x
       /\ y <> SList [] /\ plain_arithmetic y /\ no_repeated_effect y)
    /\ (forall n vs x, has_rule n vs x ->
         (forall l, lists_vars vs l -> NoDup (map fst l)) /\ plain_arithmetic x
         /\ forall us ws, declares_predicate sections n us -> declares_predicate sections n ws ->
              same_variables us ws).

  (** the types of things declared with type [o] *)
  Inductive text_type_of : option string -> string -> Prop :=
  | tt_object o : text_type_of o "object"
  | tt_self g : text_type_of (Some g) g
  | tt_super g h k : declares_type sections g (Some h) -> text_type_of (Some h) k ->
      text_type_of (Some g) k.
  Definition text_typed (problem : list sexp) (I : interp) : Prop :=
    forall g o, i_type I g o <-> exists c t,
      (declares_name ":constants" sections c t \/ declares_name ":objects" problem c t)
      /\ o = i_const I c /\ text_type_of t g.
End Domain.

(** the text of a plan: [(a c d) (b e) ..] *)
Definition plan_text (s : string) (pl : list (string * list string)) : Prop :=
  read_text s = Some (map (fun st => SList (name_sx (fst st) :: map name_sx (snd st))) pl).
(** the sections [:init] and [:goal] of a problem *)
Definition init_and_goal (sections inits : list sexp) (goal : sexp) : Prop :=
  In (section_sx ":init" inits) sections /\ In (section_sx ":goal" [goal]) sections.
