(** Properties of parsed actions: empty preconditions (C37), parameters (C40). *)
From Coq Require Import String List Bool.
From Verif Require Import Py Names Reqs Logic Validation Core Lexer TypedList UpdateTags Parser.
From Verif Require Import Sem Spec Spec_Parse Spec_Action.
From Verif Require Import Domain_facts Action_facts.
Import ListNotations.
Open Scope string_scope.
Open Scope list_scope.

(** * C37  An empty precondition is trivially true *)

(** The property is false of the code: in every accepted domain, an action written with
    [:precondition ()] is an action whose precondition holds in no state whatsoever. *)
Theorem C37_never_applicable :
  forall s n sections d an ps eff,
    domain_text s n sections -> parse_domain_fresh s = Ok d ->
    In (section_sx ":action" [name_sx an; SAtom (TKw ":parameters"); SList ps;
                              SAtom (TKw ":precondition"); SList [];
                              SAtom (TKw ":effect"); eff]) sections ->
    exists a p, In a (d_actions d) /\ a_name a = an /\ a_pre a = Some p
      /\ forall (I : interp) (e : env I), ~ holds I e p.
Proof.
  intros s n l d an ps eff T P B. unfold parse_domain_fresh in P.
  destruct (parse_domain s init_dstate) as [st' r] eqn:E. cbn [snd] in P. subst r.
  destruct (empty_precondition _ _ _ _ _ _ _ _ _ T E B) as (a & A & N & Pre).
  exists a, (FBin OOr []). auto.
Qed.
Print Assumptions C37_never_applicable.

Definition empty_pre_text : string :=
  "(define (domain d) (:predicates (p))
     (:action go :parameters () :precondition () :effect (p)))".
(** a domain with such an action: the claim fails for it *)
Theorem C37_refuted :
  ~ (forall s n sections d an ps eff,
       domain_text s n sections -> parse_domain_fresh s = Ok d ->
       In (section_sx ":action" [name_sx an; SAtom (TKw ":parameters"); SList ps;
                                 SAtom (TKw ":precondition"); SList [];
                                 SAtom (TKw ":effect"); eff]) sections ->
       exists a p, In a (d_actions d) /\ a_name a = an /\ a_pre a = Some p
         /\ forall (I : interp) (e : env I), holds I e p).
Proof.
  intros H.
  assert (X : exists l d eff,
    domain_text empty_pre_text "d" l /\ parse_domain_fresh empty_pre_text = Ok d
    /\ In (section_sx ":action" [name_sx "go"; SAtom (TKw ":parameters"); SList [];
                                 SAtom (TKw ":precondition"); SList [];
                                 SAtom (TKw ":effect"); eff]) l
    /\ map a_pre (d_actions d) = [Some (FBin OOr [])]).
  { do 3 eexists. split; [vm_compute; reflexivity|]. split; [vm_compute; reflexivity|].
    split; [right; left; reflexivity|reflexivity]. }
  destruct X as (l & d & eff & T & P & B & M).
  destruct (H _ _ _ _ _ _ _ T P B) as (a & p & A & _ & Ep & Hp).
  assert (J : In (Some p) (map a_pre (d_actions d))) by (rewrite <- Ep; now apply in_map).
  rewrite M in J. destruct J as [[= <-]|[]].
  exact (Hp {| obj := unit; i_const := fun _ => tt; i_pred := fun _ _ => True;
               i_func := fun _ _ => QArith_base.Qmake BinNums.Z0 BinNums.xH; i_type := fun _ _ => True |}
            (fun _ => tt)).
Qed.
Print Assumptions C37_refuted.

(** [ensure_formula], meant for missing formulas, does what the property asks: a missing formula is
    trivially true (or false), a given one is kept; and a problem without a goal has a trivially true one. *)
Theorem C37_missing_formula :
  (forall I e, holds I e (ensure_formula None true)) /\ (forall I e, ~ holds I e (ensure_formula None false))
  /\ (forall f b, ensure_formula (Some f) b = f)
  /\ (forall n d dn rs objs init m p, mk_problem n d dn rs objs init None m = Ok p -> forall I e, holds I e (p_goal p)).
Proof.
  split; [intros I e; exact Logic.I|]. split; [intros I e []|]. split; [reflexivity|].
  intros n d dn rs objs init m p H I e. unfold mk_problem in H.
  apply Py_facts.bind_Ok in H as (n' & _ & H). apply Py_facts.bind_Ok in H as (dd & _ & H). apply Py_facts.bind_Ok in H as (r & _ & H).
  apply Py_facts.bind_Ok in H as (u & _ & H). apply Py_facts.bind_Ok in H as (u' & _ & H). injection H as <-. exact Logic.I.
Qed.
Print Assumptions C37_missing_formula.
Example C37_missing_ex : exists p, mk_problem "p" None (Some "d") None [] [] None None = Ok p /\ ensure_formula None true <> ensure_formula None false.
Proof. eexists. split; [reflexivity|discriminate]. Qed.

(** * C40  Action parameters are kept one-to-one *)

(** Every action of a parsed domain comes from an [(:action n :parameters (..) ..)] of the text and
    has the parameters written there; every written action is in the domain.  A repeated
    parameter is kept once. *)
Theorem C40_parameters :
  forall s n sections d, domain_text s n sections -> parse_domain_fresh s = Ok d ->
    (forall a, In a (d_actions d) ->
       exists ps body groups tail,
         In (section_sx ":action" (name_sx (a_name a) :: SAtom (TKw ":parameters") :: SList ps :: body))
            sections
         /\ written_vars ps groups tail
         /\ parameters_of (assigned groups tail) (a_params a))
    /\ (forall an ps body,
         In (section_sx ":action" (name_sx an :: SAtom (TKw ":parameters") :: SList ps :: body))
            sections ->
         exists a groups tail, In a (d_actions d) /\ a_name a = an
           /\ written_vars ps groups tail
           /\ parameters_of (assigned groups tail) (a_params a)).
Proof.
  intros s n l d T P. unfold parse_domain_fresh in P.
  destruct (parse_domain s init_dstate) as [st' r] eqn:E. cbn [snd] in P. subst r.
  destruct (parsed_actions_params _ _ _ _ _ _ T E) as [A1 A2]. split.
  - intros a A. destruct (A1 a A) as (ps & body & B & (g & t & W) & Q).
    exists ps, body, g, t. split; [exact B|]. split; auto. now apply Q.
  - intros an ps body B. destruct (A2 an ps body B) as (a & A & N & (g & t & W) & Q).
    exists a, g, t. auto.
Qed.
Print Assumptions C40_parameters.

(** the claim, when no parameter is written twice *)
Theorem C40_one_to_one_partial :
  forall s n sections d a, domain_text s n sections -> parse_domain_fresh s = Ok d ->
    In a (d_actions d) ->
    exists ps body groups tail,
      In (section_sx ":action" (name_sx (a_name a) :: SAtom (TKw ":parameters") :: SList ps :: body))
         sections
      /\ written_vars ps groups tail
      /\ (NoDup (map fst (assigned groups tail)) ->
          a_params a = map (fun q => TVar (mkVar (fst q) (snd q))) (assigned groups tail)).
Proof.
  intros s n l d a T P A. unfold parse_domain_fresh in P.
  destruct (parse_domain s init_dstate) as [st' r] eqn:E. cbn [snd] in P. subst r.
  destruct (parsed_actions_params _ _ _ _ _ _ T E) as [A1 _].
  destruct (A1 a A) as (ps & body & B & (g & t & W) & Q).
  exists ps, body, g, t. split; [exact B|]. split; auto. now apply Q.
Qed.
Print Assumptions C40_one_to_one_partial.

(** a variable of the body named like a parameter is that parameter *)
Theorem C40_occurrences :
  forall s d a p e v, parse_domain_fresh s = Ok d -> In a (d_actions d) ->
    a_pre a = Some p -> a_eff a = Some e ->
    argument (TVar v) p \/ argument (TVar v) e ->
    In (v_name v) (map t_name (a_params a)) -> In (TVar v) (a_params a).
Proof.
  intros s d a p e v P. unfold parse_domain_fresh in P.
  destruct (parse_domain s init_dstate) as [st' r] eqn:E. cbn [snd] in P. subst r.
  exact (parsed_actions_body _ _ _ _ _ _ _ _ E).
Qed.
Print Assumptions C40_occurrences.

Definition params_text (ps : string) : string :=
  "(define (domain d) (:requirements :typing) (:types t u) (:predicates (p ?x ?y))
     (:action go :parameters (" +++ ps +++ ") :precondition (p ?x ?y) :effect (not (p ?y ?x))))".
(** a parameter written twice is lost: two variables written, one parameter *)
Theorem C40_refuted :
  exists d a ps body n sections groups tail,
    domain_text (params_text "?x ?x") n sections
    /\ parse_domain_fresh (params_text "?x ?x") = Ok d /\ d_actions d = [a]
    /\ In (section_sx ":action" (name_sx (a_name a) :: SAtom (TKw ":parameters") :: SList ps :: body))
          sections
    /\ written_vars ps groups tail
    /\ length (assigned groups tail) = 2 /\ length (a_params a) = 1.
Proof.
  do 8 eexists. split; [vm_compute; reflexivity|]. split; [vm_compute; reflexivity|].
  split; [reflexivity|]. split; [do 3 right; left; reflexivity|].
  split; [exact (wv_tail ["x"; "x"])|]. split; reflexivity.
Qed.
Print Assumptions C40_refuted.

Example C40_witness :
  exists d a p e,
    parse_domain_fresh (params_text "?x ?y - (either t u) ?z") = Ok d
    /\ d_actions d = [a]
    /\ a_params a = [TVar (mkVar "x" ["t"; "u"]); TVar (mkVar "y" ["t"; "u"]); TVar (mkVar "z" [])]
    /\ a_pre a = Some p /\ a_eff a = Some e
    /\ argument (TVar (mkVar "y" ["t"; "u"])) p /\ argument (TVar (mkVar "y" ["t"; "u"])) e.
Proof.
  do 4 eexists. split; [vm_compute; reflexivity|]. split; [reflexivity|]. split; [reflexivity|].
  split; [reflexivity|]. split; [reflexivity|].
  split; [apply A_pred; simpl; auto|apply A_not, A_pred; simpl; auto].
Qed.
