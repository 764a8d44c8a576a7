(** C20, C55: the name of the domain and the attribute [domain] of a problem. *)
From Coq Require Import String List Bool.
From Verif Require Import Py Names Reqs Logic Validation Core Spec Spec_Core Spec_Case Py_facts Core_facts Main_facts Case_facts Prop_Main.
Import ListNotations.
Open Scope string_scope.

(** [problem.check(domain)] compares the names letter by letter without regard to case; the letters
    are those of the English alphabet *)
Theorem C55_check_name : forall p d, domain_built d ->
  (problem_check p d = Ok tt <->
   same_but_case (get_domain_name p) (d_name d)
   /\ (forall rs, p_reqs p = Some rs -> incl rs (d_reqs d)) /\ problem_typed p d).
Proof. intros p d B. rewrite problem_check_Ok by exact B. now rewrite lower_same. Qed.
Print Assumptions C55_check_name.
Theorem C55_agrees : forall p d, agrees p d <->
   same_but_case (get_domain_name p) (d_name d)
   /\ (forall rs, p_reqs p = Some rs -> incl rs (d_reqs d)) /\ problem_typed p d.
Proof. intros p d. unfold agrees. now rewrite lower_same. Qed.
Print Assumptions C55_agrees.
Example C55_case_ex : same_but_case "Zoo-1" "zOO-1" /\ ~ same_but_case "zoo_1" "zoo-1" /\ ~ same_but_case "zoo" "zoo1".
Proof.
  split; [apply lower_same; reflexivity|]. split; intros H; apply lower_same in H; discriminate H.
Qed.

(** reading [problem.domain]: the domain given to the constructor or assigned last;
    AssertionError if there is none *)
Theorem C20_domain_attribute :
  (forall n d dn rs objs init goal m p, mk_problem n d dn rs objs init goal m = Ok p ->
     get_domain p = match d with Some x => Ok x | None => Err AssertionError end)
  /\ (forall p d, get_domain (fst (set_domain p d)) = Ok d).
Proof.
  split; [|reflexivity]. intros n d dn rs objs init goal m p H. apply mk_problem_inv in H as (E & _). unfold get_domain. rewrite E.
  destruct d; reflexivity.
Qed.
Print Assumptions C20_domain_attribute.
Example C20_domain_attribute_ex : exists p, mk_problem "p" None (Some "d") None [] [] None None = Ok p /\ get_domain p = Err AssertionError.
Proof. eexists. split; vm_compute; reflexivity. Qed.
