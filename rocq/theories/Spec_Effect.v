(** Specification: the changes an effect makes, for parsed effects and for written ones.
    Nothing here uses the library's functions. *)
From Coq Require Import String List Bool Arith ZArith QArith.
From Verif Require Import Logic Lexer Sem Spec_Parse Spec_Numbers Spec_Meaning.
Import ListNotations.
Open Scope string_scope.
Open Scope list_scope.
Open Scope nat_scope.

Section Changes.
  Variable I : interp.

  (** an elementary change: a fact becomes true, becomes false, or a function value is updated by
      [w] (assign, increase, decrease, scale-up, scale-down) and a number *)
  Inductive change : Type :=
  | Add (p : string) (os : list (obj I))
  | Del (p : string) (os : list (obj I))
  | Num (w f : string) (os : list (obj I)) (q : Q).
  Definition same_change (a b : change) : Prop :=
    match a, b with
    | Num w f os q, Num w' f' os' q' => w = w' /\ f = f' /\ os = os' /\ (q == q')%Q
    | _, _ => a = b
    end.
  (** changes that add up when they are made several times *)
  Definition additive (c : change) : Prop :=
    match c with Num w _ _ _ => w <> "assign" | _ => False end.

  (** a collection of changes: [D c k] says that [c] is made at least [k] times *)
  Definition changes := change -> nat -> Prop.
  Definition same_changes (D E : changes) : Prop := forall c k, D c k <-> E c k.
  (** several times counts only for the changes that add up *)
  Definition counted (c : change) (k : nat) : Prop := k <= 1 \/ additive c.

  Definition nothing (D : changes) : Prop := forall c k, D c k <-> k = 0.
  Definition once (c0 : change) (D : changes) : Prop :=
    forall c k, D c k <-> k = 0 \/ (k = 1 /\ same_change c c0).
  (** all of [Ds] together *)
  Definition together (Ds : list changes) (D : changes) : Prop :=
    forall c k, D c k <->
      exists ks, Forall2 (fun E j => E c j) Ds ks /\ k <= list_sum ks /\ counted c k.
  (** those of [E] if [P] *)
  Definition only_if (P : Prop) (E D : changes) : Prop :=
    forall c k, D c k <-> k = 0 \/ (P /\ E c k).
  (** those of [F e'] for all assignments [e'] in [B] together *)
  Definition everywhere (B : env I -> Prop) (F : env I -> changes) (D : changes) : Prop :=
    forall c k, D c k <->
      exists es ks, Forall B es /\ ForallOrdPairs (fun e1 e2 => exists n, e1 n <> e2 n) es
        /\ Forall2 (fun e' j => F e' c j) es ks /\ k <= list_sum ks /\ counted c k.
  (** one choice for each assignment of objects to variables *)
  Definition respects (F : env I -> changes) : Prop :=
    forall e1 e2, (forall n, e1 n = e2 n) -> same_changes (F e1) (F e2).

  Definition assign_word (k : bfun) : option string :=
    match k with
    | BAssign => Some "assign" | BScaleUp => Some "scale-up" | BScaleDown => Some "scale-down"
    | BIncrease => Some "increase" | BDecrease => Some "decrease" | _ => None
    end.

  (** the possible outcomes of a formula used as an effect; [oneof] makes more than one possible *)
  Inductive outcome (e : env I) : form -> changes -> Prop :=
  | oc_add n ts D : once (Add n (map (den I e) ts)) D -> outcome e (FPred n ts) D
  | oc_del n ts D : once (Del n (map (den I e) ts)) D -> outcome e (FNot (FPred n ts)) D
  | oc_num k w n ts x D : assign_word k = Some w ->
      once (Num w n (map (den I e) ts) (value I e x)) D ->
      outcome e (FBinFun k [FNumFun n ts; x]) D
  | oc_and ops Ds D : Forall2 (outcome e) ops Ds -> together Ds D -> outcome e (FBin OAnd ops) D
  | oc_when c f E D : outcome e f E -> only_if (holds I e c) E D -> outcome e (FWhen c f) D
  | oc_forall vs f F D : (forall e', extends I vs e e' -> outcome e' f (F e')) -> respects F ->
      everywhere (extends I vs e) F D -> outcome e (FForall vs f) D
  | oc_oneof ops f D : In f ops -> outcome e f D -> outcome e (FBin OOneOf ops) D.

  (** the possible outcomes of a written effect *)
  Definition assign_words := ["assign"; "scale-up"; "scale-down"; "increase"; "decrease"].
  Definition effect_words := ["and"; "not"; "when"; "forall"; "oneof"] ++ assign_words.
  Inductive does (e : env I) : sexp -> changes -> Prop :=
  | do_nothing D : nothing D -> does e (SList []) D
  | do_add n l os D : ~ In n effect_words -> denotes I e l os -> once (Add n os) D ->
      does e (SList (name_sx n :: l)) D
  | do_del n l os D : denotes I e l os -> once (Del n os) D ->
      does e (SList [name_sx "not"; SList (name_sx n :: l)]) D
  | do_num w h n l os x q D : In w assign_words -> function_term n l h -> denotes I e l os ->
      amount I e x q -> once (Num w n os q) D -> does e (SList [name_sx w; h; x]) D
  | do_and l Ds D : Forall2 (does e) l Ds -> together Ds D ->
      does e (SList (name_sx "and" :: l)) D
  | do_when x y E D : does e y E -> only_if (says I e x) E D ->
      does e (SList [name_sx "when"; x; y]) D
  | do_forall vs y F D : (forall e', bound I vs e e' -> does e' y (F e')) -> respects F ->
      everywhere (bound I vs e) F D -> does e (SList [name_sx "forall"; SList vs; y]) D
  | do_oneof l y D : In y l -> does e y D -> does e (SList (name_sx "oneof" :: l)) D.
End Changes.
Arguments Add {I} p os.
Arguments Del {I} p os.
Arguments Num {I} w f os q.

(** an effect in which writing it twice is not the same as writing it once: it has a choice or
    adds up *)
Definition counts (x : sexp) : Prop :=
  exists w l, In w ["oneof"; "increase"; "decrease"; "scale-up"; "scale-down"]
    /\ inside (SList (name_sx w :: l)) x.
(** no such effect is a member of the same [and] twice: the two differ in some state *)
Definition no_repeated_effect (y : sexp) : Prop :=
  forall l, inside (SList (name_sx "and" :: l)) y ->
    ForallOrdPairs (fun x1 x2 => ~ counts x1 \/ ~ counts x2
      \/ exists I e D, ~ (does I e x1 D <-> does I e x2 D)) l.
