(** C64: the definitions of a domain text are read one by one; their order does not matter. *)
From Coq Require Import String List Bool.
From Verif Require Import Py Names Reqs Logic Validation Core Lexer TypedList UpdateTags Parser.
From Verif Require Import Spec_Core Spec_Parse Spec_Apart Apart_facts Sublist_facts.
Import ListNotations.
Open Scope string_scope.
Open Scope list_scope.

(** false: the condition of a derived predicate gives its variables the types they have in the
    action in front of it, so moving the definition to the front gives another domain *)
Definition apart_text (defs : string) : string :=
  ("(define (domain d) (:requirements :typing) (:types t) (:predicates (p ?x) (q ?x))" ++ defs ++ ")")%string.
Definition an_action : string := "(:action a :parameters (?x - t) :precondition (p ?x) :effect (p ?x))".
Definition a_rule : string := "(:derived (q ?x) (p ?x))".
Theorem C64_refuted : exists d d',
  parse_domain_fresh (apart_text (an_action ++ a_rule)) = Ok d /\
  parse_domain_fresh (apart_text (a_rule ++ an_action)) = Ok d' /\
  domain_eqb d d' = false /\
  d_derived d = [mkDerived "q" [TVar (mkVar "x" [])] (FPred "p" [TVar (mkVar "x" ["t"])])] /\
  d_derived d' = [mkDerived "q" [TVar (mkVar "x" [])] (FPred "p" [TVar (mkVar "x" [])])].
Proof. do 2 eexists. repeat split; vm_compute; reflexivity. Qed.
Print Assumptions C64_refuted.

(** every accepted text is its declarations followed by its definitions *)
Theorem C64_shape : forall s d, parse_domain_fresh s = Ok d ->
  exists n requirements types constants predicates functions defs,
    domain_text s n (declarations requirements types constants predicates functions ++ defs) /\ Forall definition defs.
Proof. intros s d H. unfold parse_domain_fresh in H. destruct (parse_domain s init_dstate) as [st' r] eqn:E. cbn [snd] in H. subst. eapply accepted_shape; eauto. Qed.
Print Assumptions C64_shape.

(** what does hold, 1: the actions of the domain are those that the action definitions say, each
    determined by its own text, the declared requirements and the constants *)
Theorem C64_actions : forall requirements constants, exists act : sexp -> action,
  forall s n types predicates functions defs d,
  domain_text s n (declarations requirements types constants predicates functions ++ defs) -> Forall definition defs ->
  parse_domain_fresh s = Ok d ->
  forall a, has_action d a <-> exists x, In x defs /\ action_sect x /\ action_eqb a (act x) = true.
Proof. exact actions_apart. Qed.
Print Assumptions C64_actions.

(** 2: each derived predicate is determined by its own text, the declarations and the last action
    in front of it; in the full property that last action would not matter *)
Theorem C64_derived_partial : forall requirements types constants predicates,
  exists der : option sexp -> sexp -> derived, forall s n functions defs d,
  domain_text s n (declarations requirements types constants predicates functions ++ defs) -> Forall definition defs ->
  parse_domain_fresh s = Ok d ->
  forall p, has_derived d p <-> exists last x, placed (Der last x) defs /\ derived_eqb p (der last x) = true.
Proof. exact derived_apart. Qed.
Print Assumptions C64_derived_partial.

(** 3: leaving out, repeating and moving definitions keeps a text accepted and adds nothing, as
    long as each derived predicate keeps the last action in front of it *)
Theorem C64_fewer_partial : forall s s' n requirements types constants predicates functions defs defs' d,
  Forall definition defs -> Forall definition defs' ->
  domain_text s n (declarations requirements types constants predicates functions ++ defs) ->
  domain_text s' n (declarations requirements types constants predicates functions ++ defs') ->
  (forall p, placed p defs' -> placed p defs) -> parse_domain_fresh s = Ok d ->
  exists d', parse_domain_fresh s' = Ok d' /\ same_declarations d d' /\
    (forall a, has_action d' a -> has_action d a) /\ (forall p, has_derived d' p -> has_derived d p).
Proof.
  intros s s' n rq ty cs ps fs defs defs' d F F' T T' I H.
  destruct (fewer_definitions _ _ _ _ _ _ _ _ _ _ _ F F' T T' I H) as (d' & A & B & C & D & _). exists d'. auto.
Qed.
Print Assumptions C64_fewer_partial.

(** 4: texts with the same definitions in the same places give equal domains *)
Theorem C64_order_partial : forall s s' n requirements types constants predicates functions defs defs' d,
  Forall definition defs -> Forall definition defs' ->
  domain_text s n (declarations requirements types constants predicates functions ++ defs) ->
  domain_text s' n (declarations requirements types constants predicates functions ++ defs') ->
  (forall p, placed p defs' <-> placed p defs) -> parse_domain_fresh s = Ok d ->
  exists d', parse_domain_fresh s' = Ok d' /\ domain_eqb d' d = true.
Proof.
  intros s s' n rq ty cs ps fs defs defs' d F F' T T' I H.
  destruct (fewer_definitions _ _ _ _ _ _ _ _ _ _ _ F F' T T' (fun p => proj1 (I p)) H) as (d' & A & _ & _ & _ & E).
  exists d'. split; auto. apply E. intros p. apply I.
Qed.
Print Assumptions C64_order_partial.

(** in particular, when the derived predicates come before the actions, the order within each of
    the two groups never matters, nor does saying a definition twice *)
Lemma placed_derived_first ders acts p : Forall derived_sect ders -> Forall action_sect acts ->
  placed p (ders ++ acts) <-> (exists x, p = Act x /\ In x acts) \/ (exists x, p = Der None x /\ In x ders).
Proof.
  intros D A. assert (K : forall x, action_sect x -> derived_sect x -> False).
  { intros x (b & ->) (b' & Q). discriminate. }
  rewrite Forall_forall in D, A. split.
  - intros P. inversion P as [x l X Y E|l x r o X Y E E']; subst.
    + left. exists x. split; auto. apply in_app_or in X as [X|X]; auto. exfalso. eapply K; eauto.
    + right. exists x. assert (B : forall z, In z (l ++ [x]) -> In z ders).
      { intros z Z. assert (Q : exists m, ders = l ++ x :: m).
        { clear - E' X K A D. revert l E'. induction ders as [|y ders IH]; intros l E'.
          - exfalso. cbn in E'. apply (K x); auto. apply A. rewrite <- E'. apply in_or_app. right. now left.
          - destruct l as [|w l]; cbn in E'; injection E' as -> E'; [exists ders; reflexivity|].
            destruct (IH (fun z Z => D z (or_intror Z)) l E') as (m & ->). exists m. reflexivity. }
        destruct Q as (m & ->). apply in_app_or in Z as [Z|[<-|[]]]; apply in_or_app; [now left|right; now left]. }
      split; [|apply B, in_or_app; right; now left]. f_equal.
      inversion Y as [|l' y r' Y1 Y2]; subst; auto. exfalso. apply (K y Y1), D, B.
      apply in_or_app. left. apply in_or_app. right. now left.
  - intros [(x & -> & X)|(x & -> & X)].
    + constructor; auto. apply in_or_app. now right.
    + apply in_split in X as (l & r & ->). rewrite <- app_assoc. cbn [app]. constructor.
      * apply D, in_or_app. right. now left.
      * constructor. apply Forall_forall. intros z Z. apply D, in_or_app. now left.
Qed.
Theorem C64_derived_first : forall s s' n requirements types constants predicates functions ders ders' acts acts' d,
  Forall derived_sect ders -> Forall action_sect acts ->
  (forall x, In x ders' <-> In x ders) -> (forall x, In x acts' <-> In x acts) ->
  domain_text s n (declarations requirements types constants predicates functions ++ ders ++ acts) ->
  domain_text s' n (declarations requirements types constants predicates functions ++ ders' ++ acts') ->
  parse_domain_fresh s = Ok d -> exists d', parse_domain_fresh s' = Ok d' /\ domain_eqb d' d = true.
Proof.
  intros s s' n rq ty cs ps fs ders ders' acts acts' d D A I J T T' H.
  assert (D' : Forall derived_sect ders').
  { rewrite Forall_forall in *. intros x X. apply D. now apply I. }
  assert (A' : Forall action_sect acts').
  { rewrite Forall_forall in *. intros x X. apply A. now apply J. }
  apply (C64_order_partial s s' n rq ty cs ps fs (ders ++ acts) (ders' ++ acts') d); auto.
  - apply Forall_app. split; [eapply Forall_impl; [|exact D]; now right|eapply Forall_impl; [|exact A]; now left].
  - apply Forall_app. split; [eapply Forall_impl; [|exact D']; now right|eapply Forall_impl; [|exact A']; now left].
  - intros p. rewrite (placed_derived_first ders' acts' p D' A'), (placed_derived_first ders acts p D A).
    split; (intros [(x & E & X)|(x & E & X)]; [left|right]; exists x; split; auto; [now apply J|now apply I]).
Qed.
Print Assumptions C64_derived_first.

(** without derived predicates the order of the actions never matters *)
Theorem C64_actions_only : forall s s' n requirements types constants predicates functions defs defs' d,
  Forall action_sect defs -> (forall x, In x defs' <-> In x defs) ->
  domain_text s n (declarations requirements types constants predicates functions ++ defs) ->
  domain_text s' n (declarations requirements types constants predicates functions ++ defs') ->
  parse_domain_fresh s = Ok d -> exists d', parse_domain_fresh s' = Ok d' /\ domain_eqb d' d = true.
Proof.
  intros s s' n rq ty cs ps fs defs defs' d F I T T' H.
  apply (C64_derived_first s s' n rq ty cs ps fs [] [] defs defs' d); auto. reflexivity.
Qed.
Print Assumptions C64_actions_only.

(** the hypotheses are met: two derived predicates in front of two actions; the second text has
    them in the other order, and one of them twice *)
Definition rule2 : string := "(:derived (p ?x) (q ?x))".
Definition action2 : string := "(:action b :parameters (?y) :precondition (q ?y) :effect (not (p ?y)))".
Definition sections_of (s : string) : list sexp :=
  match read_text s with Some [SList (_ :: _ :: l)] => l | _ => [] end.
Definition body_of (x : sexp) : list sexp := match x with SList (_ :: l) => l | _ => [] end.
Definition ex1 : string := apart_text (a_rule ++ rule2 ++ an_action ++ action2).
Definition ex2 : string := apart_text (rule2 ++ a_rule ++ a_rule ++ action2 ++ an_action).
Definition nth_sx (i : nat) : sexp := nth i (sections_of ex1) (SList []).
Example C64_ex : exists d d',
  let header := declarations (Some (body_of (nth_sx 0))) (Some (body_of (nth_sx 1))) None (Some (body_of (nth_sx 2))) None in
  domain_text ex1 "d" (header ++ [nth_sx 3; nth_sx 4] ++ [nth_sx 5; nth_sx 6]) /\
  domain_text ex2 "d" (header ++ [nth_sx 4; nth_sx 3; nth_sx 3] ++ [nth_sx 6; nth_sx 5]) /\
  Forall derived_sect [nth_sx 3; nth_sx 4] /\ Forall action_sect [nth_sx 5; nth_sx 6] /\
  parse_domain_fresh ex1 = Ok d /\ parse_domain_fresh ex2 = Ok d' /\
  length (d_actions d) = 2 /\ length (d_derived d) = 2 /\ domain_eqb d' d = true.
Proof.
  do 2 eexists. split; [vm_compute; reflexivity|]. split; [vm_compute; reflexivity|].
  split; [apply Forall_forall; intros x [<-|[<-|[]]]; eexists; vm_compute; reflexivity|].
  split; [apply Forall_forall; intros x [<-|[<-|[]]]; eexists; vm_compute; reflexivity|].
  split; [vm_compute; reflexivity|]. split; [vm_compute; reflexivity|]. repeat split; vm_compute; reflexivity.
Qed.
(** leaving out the first derived predicate and the second action *)
Example C64_fewer_ex : forall p, placed p ([nth_sx 4] ++ [nth_sx 5]) -> placed p ([nth_sx 3; nth_sx 4] ++ [nth_sx 5; nth_sx 6]).
Proof.
  assert (D : Forall derived_sect [nth_sx 3; nth_sx 4]) by (apply Forall_forall; intros x [<-|[<-|[]]]; eexists; vm_compute; reflexivity).
  assert (A : Forall action_sect [nth_sx 5; nth_sx 6]) by (apply Forall_forall; intros x [<-|[<-|[]]]; eexists; vm_compute; reflexivity).
  intros p P. apply placed_derived_first in P.
  - apply placed_derived_first; auto. destruct P as [(x & E & X)|(x & E & X)]; [left|right]; exists x; split; auto; cbn [In] in *; tauto.
  - now inversion D.
  - inversion A; subst. constructor; auto.
Qed.
