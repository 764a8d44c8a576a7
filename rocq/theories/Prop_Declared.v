(** Properties of the declarations of parsed texts (C50, C51). *)
From Coq Require Import String List Bool ZArith.
From Verif Require Import Py Names Reqs Logic Validation Core Lexer TypedList UpdateTags Parser.
From Verif Require Import Spec_Core Spec_Parse Spec_Features Spec_Declared.
From Verif Require Import Declared_facts.
Import ListNotations.
Open Scope string_scope.
Open Scope list_scope.

(** * C50  A parsed domain declares exactly what its text declares *)

Theorem C50_name_requirements :
  forall s n sections d, domain_text s n sections -> parse_domain_fresh s = Ok d ->
    d_name d = n /\ forall r, In r (d_reqs d) <-> declares_req sections r.
Proof.
  intros s n l d T P. pose proof (declared_domain s n l d T P) as D. exact (conj (dc_name _ _ _ D) (dc_reqs _ _ _ D)).
Qed.
Print Assumptions C50_name_requirements.

Theorem C50_types_constants :
  forall s n sections d, domain_text s n sections -> parse_domain_fresh s = Ok d ->
    (forall t p, In (t, p) (d_types d) <-> declares_type sections t p)
    /\ (forall c g, In (c, g) (d_constants d) <-> declares_name ":constants" sections c g).
Proof.
  intros s n l d T P. pose proof (declared_domain s n l d T P) as D. exact (conj (dc_types _ _ _ D) (dc_consts _ _ _ D)).
Qed.
Print Assumptions C50_types_constants.

(** every predicate with its variables, in order, and their types *)
Theorem C50_predicates :
  forall s n sections d, domain_text s n sections -> parse_domain_fresh s = Ok d ->
    (forall p ts, In (p, ts) (d_predicates d) ->
       exists vs, declares_predicate sections p vs /\ ts = variables vs)
    /\ (forall p vs, declares_predicate sections p vs ->
       exists ws, In (p, variables ws) (d_predicates d) /\ same_variables vs ws).
Proof.
  intros s n l d T P. pose proof (declared_domain s n l d T P) as D. exact (conj (dc_preds _ _ _ D) (dc_preds' _ _ _ D)).
Qed.
Print Assumptions C50_predicates.

(** every function other than total-cost, with its variables and the type of its values *)
Theorem C50_functions_partial :
  forall s n sections d, domain_text s n sections -> parse_domain_fresh s = Ok d ->
    (forall f ts ty, f <> "total-cost" ->
       (In ((f, ts), ty) (d_functions d) <->
        exists vs, declares_function sections f vs ty /\ ts = variables vs))
    /\ (forall ty, (exists ts, In (("total-cost", ts), ty) (d_functions d)) <->
                   exists vs, declares_function sections "total-cost" vs ty).
Proof.
  intros s n l d T P. pose proof (declared_domain s n l d T P) as D. split.
  - intros f ts ty N. assert (E : forall vs, function_variables f vs = variables vs).
    { intros vs. unfold function_variables. destruct (String.eqb_spec f "total-cost"); congruence. }
    split.
    + intros I. destruct (dc_funs _ _ _ D _ _ _ I) as (vs & X & ->). rewrite E. eauto.
    + intros (vs & X & ->). rewrite <- E. exact (dc_funs' _ _ _ D _ _ _ X).
  - intros ty. split.
    + intros (ts & I). destruct (dc_funs _ _ _ D _ _ _ I) as (vs & X & _). eauto.
    + intros (vs & X). eexists. exact (dc_funs' _ _ _ D _ _ _ X).
Qed.
Print Assumptions C50_functions_partial.

(** total-cost loses the variables written after it *)
Definition toll_domain : string :=
  "(define (domain tolls) (:requirements :typing :action-costs)
     (:types car - vehicle vehicle road)
     (:constants m1 - road spare)
     (:predicates (on ?c - car ?r - road) (open ?r - (either road vehicle)) (idle))
     (:functions (total-cost ?r - road) - number))".
Theorem C50_refuted :
  exists n sections d vs ty, domain_text toll_domain n sections /\ parse_domain_fresh toll_domain = Ok d
    /\ vs = [("r", ["road"])] /\ declares_function sections "total-cost" vs ty
    /\ ~ In (("total-cost", variables vs), ty) (d_functions d)
    /\ In (("total-cost", []), ty) (d_functions d).
Proof.
  do 5 eexists. split; [vm_compute; reflexivity|]. split; [vm_compute; reflexivity|]. split; [reflexivity|].
  split; [|split; [|left; reflexivity]].
  - eexists [_; dash; name_sx "number"], [(_, Some "number")], [_; _; _; _], [(["r"], ["road"])], [].
    split; [do 4 right; left; reflexivity|]. split; [|split; [left; reflexivity|]].
    + apply (wf_group [_] [] []); [discriminate|repeat constructor; eexists; reflexivity|].
      apply (wf_tail []). constructor.
    + split; [|reflexivity]. apply (wv_group ["r"] (name_sx "road") ["road"] [] [] []); [discriminate|left; eauto|].
      apply (wv_tail []).
  - intros [X|[]]. discriminate.
Qed.
Print Assumptions C50_refuted.

(** the other declarations of this text *)
Example C50_witness :
  exists n sections d, domain_text toll_domain n sections /\ parse_domain_fresh toll_domain = Ok d
    /\ d_types d = [("car", Some "vehicle"); ("vehicle", None); ("road", None)]
    /\ d_constants d = [("m1", Some "road"); ("spare", None)]
    /\ d_predicates d = [("on", variables [("c", ["car"]); ("r", ["road"])]);
                         ("open", variables [("r", ["road"; "vehicle"])]); ("idle", [])].
Proof.
  do 3 eexists. split; [vm_compute; reflexivity|]. split; [vm_compute; reflexivity|].
  repeat split; reflexivity.
Qed.

(** * C51  A parsed problem declares exactly what its text declares *)

Theorem C51_problems :
  forall s n dn sections p, problem_text s n dn sections -> parse_problem s = Ok p ->
    p_name p = n /\ p_domain p = None /\ p_domain_name p = dn
    /\ (forall r, In r (get_requirements p) <-> declares_req sections r)
    /\ (forall o g, In (o, g) (p_objects p) <-> declares_name ":objects" sections o g).
Proof.
  intros s n dn l p T P. pose proof (declared_problem s n dn l p T P) as D.
  exact (conj (pd_name _ _ _ _ D) (conj (proj1 (pd_domain _ _ _ _ D)) (conj (proj2 (pd_domain _ _ _ _ D))
    (conj (pd_reqs _ _ _ _ D) (pd_objects _ _ _ _ D))))).
Qed.
Print Assumptions C51_problems.

(** there is a metric exactly when one is written, with the direction written *)
Theorem C51_metric :
  forall s n dn sections p, problem_text s n dn sections -> parse_problem s = Ok p ->
    (forall m, p_metric p = Some m ->
       exists x, In (section_sx ":metric" [name_sx (me_opt m); x]) sections)
    /\ (forall body, In (section_sx ":metric" body) sections ->
       exists o x m, body = [name_sx o; x] /\ p_metric p = Some m /\ me_opt m = o).
Proof.
  intros s n dn l p T P. pose proof (declared_problem s n dn l p T P) as D.
  exact (conj (pd_metric _ _ _ _ D) (pd_metric' _ _ _ _ D)).
Qed.
Print Assumptions C51_metric.

Definition trip_problem : string :=
  "(define (problem trip) (:domain tolls) (:requirements :typing :action-costs)
     (:objects a b - car m2 - road box)
     (:init (on a m2) (open m2)) (:goal (on b m2)) (:metric minimize (total-cost)))".
Example C51_witness :
  exists n dn sections p m, problem_text trip_problem n dn sections /\ parse_problem trip_problem = Ok p
    /\ p_objects p = [("a", Some "car"); ("b", Some "car"); ("m2", Some "road"); ("box", None)]
    /\ p_metric p = Some m /\ me_opt m = "minimize".
Proof.
  do 5 eexists. split; [vm_compute; reflexivity|]. split; [vm_compute; reflexivity|].
  repeat split; reflexivity.
Qed.
