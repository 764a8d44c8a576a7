(** C35: language features require their requirement flags. *)
From Coq Require Import String List Bool.
From Verif Require Import Py Names Reqs Logic Validation Core Lexer TypedList UpdateTags Parser.
From Verif Require Import Spec_Reqs Spec_Parse Spec_Features Feature_facts Missing_facts.
Import ListNotations.
Open Scope string_scope.
Open Scope list_scope.

(** The full property also says that a goal is judged by the requirements its problem declares;
    that part is false (C35_refuted), so the theorems about domains are called partial. *)

(** only if: in an accepted domain, what the types, actions and derived predicates use is declared or
    implied *)
Theorem C35_domain_partial : forall s n sections d x rs,
  domain_text s n sections -> parse_domain_fresh s = Ok d ->
  In x sections -> section_needs x rs ->
  exists r, In r rs /\ in_force (d_reqs d) r.
Proof. exact domain_sections_met. Qed.
Print Assumptions C35_domain_partial.

(** otherwise PDDLMissingRequirementError: of two texts that differ in what they declare, one
    accepted, the other is rejected with that error if it does not declare something needed; the
    error names the first of the requirements one of which some section needs, none of them being
    declared or implied *)
Theorem C35_missing_partial : forall s s' n n' declared declared' rest d' x rs,
  other_sections rest -> ~ In OBJECT_FLUENTS declared -> ~ In OBJECT_FLUENTS declared' ->
  domain_text s' n' (declared_sx declared' ++ rest) -> parse_domain_fresh s' = Ok d' ->
  domain_text s n (declared_sx declared ++ rest) ->
  In x rest -> section_needs x rs -> ~ (exists r, In r rs /\ in_force declared r) ->
  exists y q qs, parse_domain_fresh s = Err (PDDLMissingRequirementError q)
    /\ In y rest /\ section_needs y (q :: qs) /\ ~ (exists r, In r (q :: qs) /\ in_force declared r).
Proof. exact domain_missing_named. Qed.
Print Assumptions C35_missing_partial.

(** a condition accepted under other requirements is accepted, with the same result, when all it
    needs is there *)
Lemma condition_accepted : forall c e x f, gd (with_ext e c) x = Ok f ->
  (forall rs, cond_needs x rs -> exists r, In r rs /\ In r (g_ext c)) -> gd c x = Ok f.
Proof.
  intros c e x f H A. destruct (gd_verdict c e x f H) as [E|(q & rs & _ & N & U)]; [exact E|].
  exfalso. apply U, A, N.
Qed.
Theorem C35_condition_partial : forall c e x f, gd (with_ext e c) x = Ok f ->
  (forall rs, cond_needs x rs -> exists r, In r rs /\ In r (g_ext c)) -> gd c x = Ok f.
Proof. exact condition_accepted. Qed.
Print Assumptions C35_condition_partial.
Lemma effect_accepted : forall c e t x f, effect (with_ext e c) t x = Ok f ->
  (forall rs, eff_needs x rs -> exists r, In r rs /\ In r (g_ext c)) -> effect c t x = Ok f.
Proof.
  intros c e t x f H A. destruct (effect_verdict c e x t f H) as [E|(q & rs & _ & N & U)]; [exact E|].
  exfalso. apply U, A, N.
Qed.
Theorem C35_effect_partial : forall c e t x f, effect (with_ext e c) t x = Ok f ->
  (forall rs, eff_needs x rs -> exists r, In r rs /\ In r (g_ext c)) -> effect c t x = Ok f.
Proof. exact effect_accepted. Qed.
Print Assumptions C35_effect_partial.

(** no goal that uses one of the features is accepted, whatever the problem declares *)
Theorem C35_goals : forall s n d sections g p rs,
  problem_text s n d sections -> In (section_sx ":goal" [g]) sections -> cond_needs g rs ->
  parse_problem s <> Ok p.
Proof. exact parse_problem_goal. Qed.
Print Assumptions C35_goals.

Definition or_problem : string :=
  "(define (problem p) (:domain d) (:requirements :disjunctive-preconditions :adl)
     (:objects a) (:init (p a)) (:goal (or (p a))))".
Theorem C35_refuted :
  (exists objects init g, problem_text or_problem "p" "d"
     (declared_sx [DIS_PRECONDITION; ADL] ++ [objects; init; section_sx ":goal" [g]])
     /\ forall rs, cond_needs g rs -> exists r, In r rs /\ in_force [DIS_PRECONDITION; ADL] r)
  /\ parse_problem or_problem = Err (PDDLMissingRequirementError DIS_PRECONDITION).
Proof.
  split; [|vm_compute; reflexivity].
  do 3 eexists. split; [vm_compute; reflexivity|].
  intros rs N. exists DIS_PRECONDITION. split; [|left; simpl; auto].
  inversion N as [args|x y|vs x|vs x|n l|l|w args x rs' W I N'|w vs x rs' W N']; subst; simpl; auto.
  destruct I as [<-|[]]. inversion N'; subst; try discriminate;
    match goal with H : In _ _ |- _ => simpl in H; intuition discriminate end.
Qed.
Print Assumptions C35_refuted.

(** ** the hypotheses are met *)
Definition rest_text : string :=
  "(:types t - u u) (:constants k) (:predicates (p ?x) (q ?x))
   (:action a :parameters (?x)
      :precondition (and (p ?x) (not (exists (?y) (or (p ?y) (= ?x k)))))
      :effect (oneof (q ?x) (and (when (imply (p k) (q ?x)) (not (p ?x))) (p k))))
   (:derived (q ?x) (forall (?z) (p ?z))))".
Definition declaring (rs : string) : string := "(define (domain d) " +++ rs +++ rest_text.
Definition everything : string := "(:requirements :typing :adl :non-deterministic) ".
Example C35_witness :
  exists rest d act der,
    other_sections rest
    /\ domain_text (declaring everything) "d" (declared_sx [TYPING; ADL; NON_DETERMINISTIC] ++ rest)
    /\ parse_domain_fresh (declaring everything) = Ok d
    /\ In act rest /\ In der rest
    /\ def_needs act [EXISTENTIAL_PRECONDITION; QUANTIFIED_PRECONDITION; ADL]
    /\ def_needs act [EQUALITY] /\ def_needs act [DIS_PRECONDITION; ADL]
    /\ def_needs act [NON_DETERMINISTIC]
    /\ def_needs der [UNIVERSAL_PRECONDITION; QUANTIFIED_PRECONDITION; ADL]
    /\ domain_text (declaring "") "d" (declared_sx [] ++ rest)
    /\ parse_domain_fresh (declaring "") = Err (PDDLMissingRequirementError TYPING)
    /\ parse_domain_fresh (declaring "(:requirements :typing)") = Err (PDDLMissingRequirementError EQUALITY)
    /\ parse_domain_fresh (declaring "(:requirements :adl)") = Err (PDDLMissingRequirementError NON_DETERMINISTIC).
Proof.
  do 4 eexists.
  split; [|split; [vm_compute; reflexivity|]].
  2:{ split; [vm_compute; reflexivity|]. split; [right; right; right; left; reflexivity|].
      split; [right; right; right; right; left; reflexivity|].
      split; [apply dn_pre; eapply (cn_part "and"); [simpl; tauto|right; left; reflexivity|];
              eapply (cn_part "not"); [simpl; tauto|left; reflexivity|]; apply cn_exists|].
      split; [apply dn_pre; eapply (cn_part "and"); [simpl; tauto|right; left; reflexivity|];
              eapply (cn_part "not"); [simpl; tauto|left; reflexivity|];
              apply (cn_body "exists"); [simpl; tauto|];
              eapply (cn_part "or"); [simpl; tauto|right; left; reflexivity|]; apply cn_eq_var|].
      split; [apply dn_eff; eapply (en_part "oneof"); [simpl; tauto|right; left; reflexivity|];
              eapply (en_part "and"); [simpl; tauto|left; reflexivity|];
              apply en_when_cond; apply cn_imply|].
      split; [apply dn_eff; apply en_oneof|].
      split; [apply dn_derived; apply cn_forall|].
      split; [vm_compute; reflexivity|]. split; [vm_compute; reflexivity|].
      split; vm_compute; reflexivity. }
  intros b H. simpl in H. decompose [or] H; try discriminate. contradiction.
Qed.
