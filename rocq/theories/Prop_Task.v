(** C85: a parsed task has the solutions that its texts describe. *)
From Coq Require Import String List Bool Arith ZArith QArith.
From Verif Require Import Py Names Reqs Logic Validation Core Lexer TypedList UpdateTags Parser.
From Verif Require Import Sem Spec Spec_Parse Spec_Numbers Spec_Meaning Spec_Effect Spec_Declared Spec_Steps Spec_Execute Spec_Task.
From Verif Require Import Parse_facts Task_facts Prop_Steps.
Import ListNotations.
Open Scope string_scope.
Open Scope list_scope.
Close Scope Q_scope.

(** Domain, problem and plan are parsed.  In every state, and however changes are carried out, the
    parsed plan solves the parsed problem exactly if the written plan solves the written problem; and
    the objects have the types of the parsed declarations exactly if they have those written. *)
Theorem C85_solutions_partial : forall sd n dl d sp pn dn pl p ss steps plan inits goal,
  domain_text sd n dl -> parse_domain_fresh sd = Ok d ->
  problem_text sp pn dn pl -> parse_problem sp = Ok p ->
  plan_text ss steps -> parse_plan ss = Ok plan ->
  init_and_goal pl inits goal -> clear_text dl -> plain_arithmetic goal ->
  forall next I,
    (typed d p I <-> text_typed dl pl I)
    /\ (solves next d p I plan <-> text_solves dl next inits goal I steps).
Proof.
  intros sd n dl d sp pn dn pl p ss steps plan inits goal T H T' H' S P IG C PA next I. split; [eapply typed_iff; eauto|].
  assert (E : map names plan = steps).
  { apply C66_exact in P as [P _]. unfold plan_text in S. rewrite P in S. injection S as S. clear - S.
    revert steps S. induction plan as [|[a cs] plan IH]; intros [|[b ns] steps] S; try discriminate; auto. cbn [map] in S |- *.
    injection S as -> S1 S2. rewrite (IH _ S2). f_equal. unfold names. cbn [fst snd]. f_equal. clear - S1.
    revert ns S1. induction cs as [|c cs IH]; intros [|k ns] S; try discriminate; auto. cbn in *. injection S as -> S. f_equal. auto. }
  rewrite <- E. eapply solves_iff; eauto.
Qed.
Print Assumptions C85_solutions_partial.

(** The condition [clear_text] cannot be dropped: an action whose precondition is written [()] can
    be executed according to the text, but never after parsing. *)
Definition free_domain : string :=
  "(define (domain d) (:predicates (done)) (:action free :parameters () :precondition () :effect (done)))".
Definition free_problem : string := "(define (problem p) (:domain d) (:init) (:goal (done)))".
Definition world (P : Prop) : interp :=
  {| obj := unit; i_const := fun _ => tt; i_pred := fun k _ => k = "done" /\ P;
     i_func := fun _ _ => 0%Q; i_type := fun _ _ => True |}.
Theorem C85_refuted : exists n dl d pn dn pl p steps plan inits goal next I,
  domain_text free_domain n dl /\ parse_domain_fresh free_domain = Ok d
  /\ problem_text free_problem pn dn pl /\ parse_problem free_problem = Ok p
  /\ plan_text "(free)" steps /\ parse_plan "(free)" = Ok plan
  /\ init_and_goal pl inits goal /\ plain_arithmetic goal
  /\ text_solves dl next inits goal I steps /\ ~ solves next d p I plan.
Proof.
  do 8 eexists. exists [("free", [])], [], (SList [name_sx "done"]), (fun _ _ _ I' => I' = world True), (world False).
  split; [vm_compute; reflexivity|]. split; [vm_compute; reflexivity|]. split; [vm_compute; reflexivity|]. split; [vm_compute; reflexivity|].
  split; [instantiate (1 := [("free", [])]); vm_compute; reflexivity|]. split; [vm_compute; reflexivity|].
  split; [split; [left; reflexivity|right; left; reflexivity]|]. split.
  { split.
    - intros o l O X. inversion X as [|x l0 Hx Hi]; subst. destruct Hx as [<-|[]]. inversion Hi.
    - intros x l X. inversion X as [|y l0 Hx Hi]; subst. destruct Hx as [<-|[]]. inversion Hi. }
  match goal with |- text_solves ?x _ _ _ _ _ /\ _ => set (dl := x) end.
  assert (CT : forall I, text_completed dl I (with_facts I (i_pred I))).
  { intros I. exists (i_pred I). split; auto. intros k os. split.
    - intros K R [F _]. auto.
    - intros K. apply K. split; auto. intros k0 vs x l e [Hr|[Hr|[]]]; discriminate. }
  split.
  - split; [|split].
    + split; [|intros ? ? ? ? ? []]. intros k os. split; [intros [_ []]|intros (cs & [] & _)].
    + intros st [<-|[]]. exists [], (SList []), (SList [name_sx "done"]), []. split; [right; left; reflexivity|]. split; [|constructor].
      exists [], []. split; [exact (wv_tail [])|reflexivity].
    + exists (world True). split.
      * eapply trun_step; [|apply trun_end].
        exists [], (SList []), (SList [name_sx "done"]), [], (with_facts (world False) (i_pred (world False))), (fun _ => tt),
          (fun c k => k = 0 \/ k = 1 /\ same_change (with_facts (world False) (i_pred (world False))) c (Add "done" [])).
        split; [right; left; reflexivity|]. split; [exists [], []; split; [exact (wv_tail [])|reflexivity]|]. split; [apply CT|].
        split; [constructor|]. split; [exact I|]. split; [|reflexivity].
        apply (do_add _ _ "done" [] []); [cbn; intuition discriminate|constructor|]. intros c k. reflexivity.
      * eexists. split; [apply CT|]. intros e. cbn. exists []. split; [constructor|]. auto.
  - intros (_ & _ & I' & R & _). inversion R as [|? ? ? ? ? X]; subst. destruct X as (a & J & e & D & Ha & _ & _ & _ & P & _).
    destruct Ha as [<-|[]]. exact P.
Qed.
Print Assumptions C85_refuted.

(** Example: a task with a derived predicate and types *)
Definition road_domain : string :=
  "(define (domain roads) (:requirements :typing :derived-predicates) (:types place) (:constants home - place)
     (:predicates (at ?p - place) (road ?p ?q - place) (near ?q - place))
     (:derived (near ?q) (road home ?q))
     (:action go :parameters (?p ?q - place) :precondition (and (at ?p) (road ?p ?q)) :effect (and (at ?q) (not (at ?p)))))".
Definition road_problem : string :=
  "(define (problem trip) (:domain roads) (:objects b - place) (:init (at home) (road home b)) (:goal (and (at b) (near b))))".
Ltac look :=
  repeat match goal with
  | H : inside _ (SAtom _) |- _ => inversion H; subst; clear H
  | H : inside _ (SList _) |- _ => inversion H; subst; clear H
  | H : In _ [] |- _ => destruct H
  | H : In _ (_ :: _) |- _ => destruct H as [H|H]; [subst|]
  end.
Ltac plain := split; [intros o l O X; look; try discriminate; cbn in O; intuition discriminate|intros x l X; look].
Lemma listed vs l tl : lists_vars vs l -> typed_list_variable vs = Ok tl -> l = tl.
Proof. intros (g & t & W & ->) E. now destruct (proj1 (typed_list_variable_Ok _ _ _ tl W) E) as (-> & _). Qed.
Example C85_ex : exists n dl d pn dn pl p steps plan inits goal,
  domain_text road_domain n dl /\ parse_domain_fresh road_domain = Ok d
  /\ problem_text road_problem pn dn pl /\ parse_problem road_problem = Ok p
  /\ plan_text "(go home b)" steps /\ parse_plan "(go home b)" = Ok plan
  /\ init_and_goal pl inits goal /\ clear_text dl /\ plain_arithmetic goal
  /\ length (d_actions d) = 1 /\ length (d_derived d) = 1.
Proof.
  do 11 eexists. split; [vm_compute; reflexivity|]. split; [vm_compute; reflexivity|]. split; [vm_compute; reflexivity|].
  split; [vm_compute; reflexivity|]. split; [instantiate (1 := [("go", ["home"; "b"])]); vm_compute; reflexivity|].
  split; [vm_compute; reflexivity|]. split; [split; [right; left; reflexivity|do 2 right; left; reflexivity]|].
  split; [|split; [plain|split; reflexivity]]. split.
  - intros an ps x y Ha. unfold has_action, section_sx, name_sx in Ha. repeat destruct Ha as [Ha|Ha]; try discriminate; [|destruct Ha].
    injection Ha as <- <- <- <-. split; [|split; [discriminate|split; [plain|split; [discriminate|split; [plain|]]]]].
    + intros l L. rewrite (listed _ _ _ L eq_refl). repeat constructor; cbn; intuition discriminate.
    + intros l X. assert (NC : forall z, (forall w m, In w ["oneof"; "increase"; "decrease"; "scale-up"; "scale-down"] -> ~ inside (SList (name_sx w :: m)) z) -> ~ counts z).
      { intros z Z (w & m & W & Y). exact (Z w m W Y). }
      unfold name_sx in X. look; try discriminate. 
      apply FOP_cons; [|repeat constructor]. constructor; [|constructor]. left. apply NC. intros w m W Y. unfold name_sx in Y. look; cbn in W; intuition discriminate.
  - intros k vs x Hr. unfold has_rule, section_sx, name_sx in Hr. repeat destruct Hr as [Hr|Hr]; try discriminate; [|destruct Hr].
    injection Hr as <- <- <-. split; [|split; [plain|]].
    + intros l L. rewrite (listed _ _ _ L eq_refl). repeat constructor; cbn; intuition discriminate.
    + match goal with |- forall us ws, declares_predicate ?x ?k us -> _ => assert (D : forall us, declares_predicate x k us -> us = [("q", ["place"])]) end;
        [|intros us ws U W; apply D in U, W; subst; constructor; [split; [reflexivity|intros g; reflexivity]|constructor]].
      intros us (body & vs & g & t & B & V & W & ->). unfold section_sx, name_sx in B. repeat destruct B as [B|B]; try discriminate; [|destruct B].
      injection B as <-. repeat destruct V as [V|V]; try discriminate; [|destruct V]. injection V as <-.
      apply (listed _ (assigned g t) _ (ex_intro _ g (ex_intro _ t (conj W eq_refl)))). reflexivity.
Qed.
