(** Specification: graphs, type hierarchies, occurrences of terms.  Nothing here models code. *)
From Coq Require Import String List Relations.
From Verif Require Import Reqs Logic Validation.
Import ListNotations.
Open Scope string_scope.
Open Scope list_scope.

(** ** Graphs: a dictionary from nodes to neighbours *)
(** [b] is a neighbour of [a] (keys are unique in a dictionary) *)
Definition edge (g : graph) (a b : string) : Prop := exists ns, In (a, Some ns) g /\ In b ns.
Definition on_cycle (g : graph) (n : string) : Prop := clos_trans _ (edge g) n n.
Definition acyclic (g : graph) : Prop := forall n, ~ on_cycle g n.
Fixpoint walk (g : graph) (p : list string) : Prop :=
  match p with
  | a :: ((b :: _) as q) => edge g a b /\ walk g q
  | _ => True
  end.

(** ** Type hierarchies: a dictionary from types to their supertype (None or "": no supertype) *)
Definition supertype (d : types_dict) (a b : string) : Prop := In (a, Some b) d /\ b <> "".
(** the types a dictionary declares: its keys and their supertypes *)
Definition declared (d : types_dict) (t : string) : Prop :=
  (exists v, In (t, v) d) \/ (exists c, supertype d c t).

(** :typing is declared or implied *)
Definition typing_on (rs : list req) : Prop := In TYPING rs \/ In ADL rs.

(** ** Occurrences of terms in formulas and effects; quantified variables occur as well *)
Inductive occurs (t : term) : form -> Prop :=
| O_pred n ts : In t ts -> occurs t (FPred n ts)
| O_eq_l r : occurs t (FEq t r)
| O_eq_r l : occurs t (FEq l t)
| O_numfun n ts : In t ts -> occurs t (FNumFun n ts)
| O_binfun k ops f : In f ops -> occurs t f -> occurs t (FBinFun k ops)
| O_bin k ops f : In f ops -> occurs t f -> occurs t (FBin k ops)
| O_not f : occurs t f -> occurs t (FNot f)
| O_quant q vs c : occurs t c -> occurs t (FQuant q vs c)
| O_bound q v vs c : In v vs -> t = TVar v -> occurs t (FQuant q vs c)
| O_when_c c e : occurs t c -> occurs t (FWhen c e)
| O_when_e c e : occurs t e -> occurs t (FWhen c e)
| O_forall vs e : occurs t e -> occurs t (FForall vs e)
| O_fbound v vs e : In v vs -> t = TVar v -> occurs t (FForall vs e).

(** occurrences as an argument of a predicate, an equality or a function *)
Inductive argument (t : term) : form -> Prop :=
| A_pred n ts : In t ts -> argument t (FPred n ts)
| A_eq_l r : argument t (FEq t r)
| A_eq_r l : argument t (FEq l t)
| A_numfun n ts : In t ts -> argument t (FNumFun n ts)
| A_binfun k ops f : In f ops -> argument t f -> argument t (FBinFun k ops)
| A_bin k ops f : In f ops -> argument t f -> argument t (FBin k ops)
| A_not f : argument t f -> argument t (FNot f)
| A_quant q vs c : argument t c -> argument t (FQuant q vs c)
| A_when_c c e : argument t c -> argument t (FWhen c e)
| A_when_e c e : argument t e -> argument t (FWhen c e)
| A_forall vs e : argument t e -> argument t (FForall vs e).

(** the binders of a formula *)
Inductive binds (v : var) : form -> Prop :=
| V_quant q vs c : In v vs -> binds v (FQuant q vs c)
| V_forall vs e : In v vs -> binds v (FForall vs e)
| V_quant_in q vs c : binds v c -> binds v (FQuant q vs c)
| V_forall_in vs e : binds v e -> binds v (FForall vs e)
| V_binfun k ops f : In f ops -> binds v f -> binds v (FBinFun k ops)
| V_bin k ops f : In f ops -> binds v f -> binds v (FBin k ops)
| V_not f : binds v f -> binds v (FNot f)
| V_when_c c e : binds v c -> binds v (FWhen c e)
| V_when_e c e : binds v e -> binds v (FWhen c e).

(** a term is well typed: it has no type unless types are allowed, and its types are declared *)
Definition term_typed (types : types_dict) (rs : list req) (t : term) : Prop :=
  (t_tags t <> [] -> typing_on rs) /\ (forall g, In g (t_tags t) -> declared types g).
Definition form_typed (types : types_dict) (rs : list req) (f : form) : Prop :=
  forall t, occurs t f -> term_typed types rs t.

(** instantiate is defined on conditions and on effects without When / Forall *)
Fixpoint plain (f : form) : Prop :=
  match f with
  | FWhen _ _ | FForall _ _ => False
  | FBinFun _ ops | FBin _ ops => fold_right (fun g p => plain g /\ p) True ops
  | FNot g => plain g
  | FQuant _ _ c => plain c
  | _ => True
  end.

(** ** Well-formed numeric expressions and conditions *)
Definition arith (k : bfun) : Prop := k = BPlus \/ k = BMinus \/ k = BTimes \/ k = BDivide.
Definition comparison (k : bfun) : Prop :=
  k = BEqual \/ k = BLess \/ k = BLessEq \/ k = BGreater \/ k = BGreaterEq.
Inductive is_num : form -> Prop :=
| N_fun n ts : is_num (FNumFun n ts)
| N_val v : is_num (FNumVal v)
| N_op k ops : arith k -> Forall is_num ops -> is_num (FBinFun k ops).
Inductive is_cond : form -> Prop :=
| C_pred n ts : is_cond (FPred n ts)
| C_eq l r : is_cond (FEq l r)
| C_cmp k ops : comparison k -> Forall is_num ops -> is_cond (FBinFun k ops)
| C_bin k ops : k <> OOneOf -> Forall is_cond ops -> is_cond (FBin k ops)
| C_not f : is_cond f -> is_cond (FNot f)
| C_quant q vs c : is_cond c -> is_cond (FQuant q vs c).

(** [within g f]: [g] is [f] or one of its subformulas *)
Inductive within (g : form) : form -> Prop :=
| W_self : within g g
| W_binfun k ops f : In f ops -> within g f -> within g (FBinFun k ops)
| W_bin k ops f : In f ops -> within g f -> within g (FBin k ops)
| W_not f : within g f -> within g (FNot f)
| W_quant q vs c : within g c -> within g (FQuant q vs c)
| W_when_c c e : within g c -> within g (FWhen c e)
| W_when_e c e : within g e -> within g (FWhen c e)
| W_forall vs e : within g e -> within g (FForall vs e).
