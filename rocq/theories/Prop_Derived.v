(** Properties of parsed derived predicates: type tags (C27), subtype checks (C28). *)
From Coq Require Import String List Bool Relations.
From Verif Require Import Py Names Reqs Logic Validation Core Lexer TypedList UpdateTags Parser.
From Verif Require Import Spec Spec_Core Spec_Parse Spec_Derived.
From Verif Require Import Py_facts Names_facts Derived_facts Domain_facts Derived_facts2.
Import ListNotations.
Open Scope string_scope.
Open Scope list_scope.

(** * C27  Type-tag propagation respects scoping *)

(** Every derived predicate of a parsed domain comes from a (:derived h x) of the text; the tags
    of its condition are those of the head (free occurrences) or of the innermost binder (bound
    occurrences); head and condition are what was written up to tags of variables.
    Partial: an untyped variable of the head must not have the name of an action parameter. *)
Theorem C27_partial :
  forall s dom dp, parse_domain_fresh s = Ok dom -> In dp (d_derived dom) ->
    (forall t, In t (dp_terms dp) -> t_tags t = [] ->
       forall a, In a (d_actions dom) -> ~ In (t_name t) (map t_name (a_params a))) ->
    scoped (head_env (dp_terms dp)) (dp_cond dp)
    /\ exists n l0 h x, domain_text s n l0 /\ In (section_sx ":derived" [h; x]) l0
       /\ (exists sti cond, gd (domain_ctx sti) x = Ok cond /\ strip (dp_cond dp) = strip cond)
       /\ (exists ts, atomic_formula_skeleton h = Ok (dp_name dp, ts)
            /\ map strip_term (dp_terms dp) = map strip_term ts).
Proof.
  intros s dom dp H D U. unfold parse_domain_fresh in H.
  destruct (parse_domain s init_dstate) as [st' r] eqn:E. cbn [snd] in H. subst r.
  refine (parsed_derived_scoped s init_dstate st' dom dp _ E D _); [constructor|].
  intros t Ht Tg. split; [intros []|auto].
Qed.
Print Assumptions C27_partial.

(** the same for one (:derived h x), in any state of the transformer *)
Theorem C27_rule_partial :
  forall st st' h x d,
    (forall n v, dict_get String.eqb n (s_params st) = Some v -> v_name v = n) ->
    derived_def [h; x] st = (st', Ok d) ->
    (forall t, In t (dp_terms d) -> t_tags t = [] ->
       match dict_get String.eqb (t_name t) (s_params st) with Some v => v_tags v | None => [] end
       = []) ->
    scoped (head_env (dp_terms d)) (dp_cond d)
    /\ (exists cond, gd (domain_ctx st) x = Ok cond /\ strip (dp_cond d) = strip cond)
    /\ exists ts, atomic_formula_skeleton h = Ok (dp_name d, ts)
         /\ map strip_term (dp_terms d) = map strip_term ts.
Proof. exact derived_scoped. Qed.
Print Assumptions C27_rule_partial.

(** the parameter of an action leaks into a derived predicate: p's argument is untyped, its
    occurrence in the condition has type t *)
Definition C27_text : string :=
  "(define (domain d) (:requirements :typing :derived-predicates) (:types t)
     (:predicates (p ?x) (q ?x))
     (:action a :parameters (?x - t) :precondition (q ?x) :effect (p ?x))
     (:derived (p ?x) (q ?x)))".
Theorem C27_refuted :
  exists s dom dp, parse_domain_fresh s = Ok dom /\ In dp (d_derived dom)
    /\ ~ scoped (head_env (dp_terms dp)) (dp_cond dp).
Proof.
  destruct (parse_domain_fresh C27_text) as [dom|] eqn:E; [|vm_compute in E; discriminate].
  exists C27_text, dom. vm_compute in E. inversion E; subst dom. clear E.
  eexists. split; [vm_compute; reflexivity|]. split; [left; reflexivity|].
  intros H. vm_compute in H. inversion H; subst. discriminate.
Qed.
Print Assumptions C27_refuted.

(** a domain meeting the hypotheses, with nested quantifiers that rebind the head's variable *)
Definition C27_ok_text : string :=
  "(define (domain d) (:requirements :adl :derived-predicates :typing) (:types t - object u - t)
     (:predicates (p ?x - t ?y) (q ?x))
     (:action a :parameters (?z - t) :precondition (q ?z) :effect (q ?z))
     (:derived (p ?x ?y) (and (q ?x) (exists (?x - u) (or (q ?x) (forall (?y - t) (q ?y)))) (q ?y))))".
Example C27_witness :
  exists dom dp, parse_domain_fresh C27_ok_text = Ok dom /\ In dp (d_derived dom)
    /\ (forall t, In t (dp_terms dp) -> t_tags t = [] ->
         forall a, In a (d_actions dom) -> ~ In (t_name t) (map t_name (a_params a)))
    /\ dp_terms dp = [TVar (mkVar "x" ["t"]); TVar (mkVar "y" [])]
    /\ dp_cond dp =
       FBin OAnd
         [FPred "q" [TVar (mkVar "x" ["t"])];
          FQuant QExists [mkVar "x" ["u"]]
            (FBin OOr [FPred "q" [TVar (mkVar "x" ["u"])];
               FQuant QForall [mkVar "y" ["t"]] (FPred "q" [TVar (mkVar "y" ["t"])])]);
          FPred "q" [TVar (mkVar "y" [])]].
Proof.
  destruct (parse_domain_fresh C27_ok_text) as [dom|] eqn:E; [|vm_compute in E; discriminate].
  exists dom. vm_compute in E. inversion E; subst dom. clear E.
  eexists. split; [reflexivity|]. split; [left; reflexivity|].
  split; [|split; reflexivity].
  intros t Ht Tg a Ha K. cbn in Ha. destruct Ha as [<-|[]]. cbn in Ht, K.
  destruct Ht as [<-|[<-|[]]]; cbn in K; destruct K as [K|[]]; discriminate.
Qed.

(** * C28  Subtype checks terminate with the right verdict *)

(** [check_subtype] is the while loop of the code: it is the loop's result when the loop ends, and
    Diverges exactly when the loop runs forever *)
Theorem C28_loop :
  forall types left right,
    (forall r, r <> Err Diverges ->
       (check_subtype types left right = r
        <-> ends (subtype_step types left right) (Some left) r))
    /\ (check_subtype types left right = Err Diverges
        <-> runs_forever (subtype_step types left right) (Some left)).
Proof. intros. split; [intros; now apply subtype_loop|apply subtype_loop_forever]. Qed.
Print Assumptions C28_loop.

(** a check that succeeds is right; it succeeds exactly when every left type, or its direct
    supertype, is among the right types *)
Theorem C28_partial :
  forall d left right, NoDup (map fst d) ->
    (check_subtypes (Some d) left right = Ok tt ->
     right = [] \/ forall g, In g left -> exists p, In p right /\ descendant_or_self d g p)
    /\ (check_subtypes (Some d) left right = Ok tt <->
        right = [] \/ forall g, In g left -> In g right \/ exists p, In (g, Some p) d /\ In p right).
Proof. intros. split; [now apply check_subtypes_sound|now apply check_subtypes_Ok]. Qed.
Print Assumptions C28_partial.

(** false as stated: a legal hierarchy a -> b -> c in which checking a against c never ends, and a
    domain text on which the parser hangs *)
Definition C28_text : string :=
  "(define (domain d) (:requirements :typing :derived-predicates) (:types a - b b - c c)
     (:predicates (p ?x - c) (q ?x - a)) (:derived (p ?x - a) (q ?x)))".
Theorem C28_refuted :
  exists d left right p, NoDup (map fst d) /\ types_legal d /\ hierarchy_ok d
    /\ In p right /\ descendant_or_self d left p
    /\ runs_forever (subtype_step (Some d) left right) (Some left)
    /\ check_subtypes (Some d) [left] right = Err Diverges
    /\ parse_domain_fresh C28_text = Err Diverges.
Proof.
  exists [("a", Some "b"); ("b", Some "c"); ("c", None)], "a", ["c"], "c".
  split; [repeat constructor; cbn; intuition discriminate|].
  assert (Sup : forall k p, supertype [("a", Some "b"); ("b", Some "c"); ("c", None)] k p ->
    (k = "a" /\ p = "b") \/ (k = "b" /\ p = "c")).
  { intros k p [H _]. cbn in H. destruct H as [[= <- <-]|[[= <- <-]|[H|[]]]]; [auto|auto|discriminate]. }
  split.
  { split.
    - intros k v H. cbn in H. destruct H as [[= <- <-]|[[= <- <-]|[[= <- <-]|[]]]]; apply parse_type_Ok; reflexivity.
    - intros k p H. destruct (Sup _ _ H) as [[-> ->]|[-> ->]]; apply parse_type_Ok; reflexivity. }
  split.
  { split.
    - intros p H. destruct (Sup _ _ H) as [[H0 _]|[H0 _]]; discriminate.
    - assert (T : forall x y, clos_trans _ (supertype
        [("a", Some "b"); ("b", Some "c"); ("c", None)]) x y ->
        (x = "a" /\ (y = "b" \/ y = "c")) \/ (x = "b" /\ y = "c")).
      { induction 1 as [x y H|x y z H IH H' IH'].
        - destruct (Sup _ _ H) as [[-> ->]|[-> ->]]; auto.
        - destruct IH as [[-> [->| ->]]|[-> ->]], IH' as [[E [->| ->]]|[E ->]];
            try discriminate; auto. }
      intros n H. destruct (T _ _ H) as [[-> [E|E]]|[-> E]]; discriminate. }
  split; [left; reflexivity|]. split.
  { apply rt_trans with "b"; apply rt_step; cbn; auto. }
  split; [apply C28_loop; vm_compute; reflexivity|].
  split; vm_compute; reflexivity.
Qed.
Print Assumptions C28_refuted.

Example C28_witness :
  check_subtypes (Some [("a", Some "b"); ("b", None)]) ["a"; "b"] ["b"] = Ok tt
  /\ check_subtypes (Some [("a", None); ("b", None)]) ["a"] ["b"] = Err PDDLParsingError.
Proof. split; vm_compute; reflexivity. Qed.
