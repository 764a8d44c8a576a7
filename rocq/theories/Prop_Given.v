(** C16 for derived predicates; C20: a domain and its name or requirements given together. *)
From Coq Require Import String List Bool.
From Verif Require Import Py Names Reqs Logic Validation Core Sem Spec Spec_Core
  Py_facts Logic_facts Names_facts Order_facts Inst_facts Core_facts.
Import ListNotations.
Open Scope string_scope.
Open Scope list_scope.

(** * C16: an instantiated derived predicate says of the images what the original says of the variables *)
Theorem C16_derived_partial : forall I m d d',
  is_cond (dp_cond d) ->
  (forall f, f = dp_pred d \/ f = dp_cond d -> names_agree m f /\ no_capture m f /\ arith_kept m f) ->
  derived_instantiate m d = Ok d' ->
  forall e, (holds I e (dp_pred d') <-> holds I (bind_env m e) (dp_pred d))
         /\ (holds I e (dp_cond d') <-> holds I (bind_env m e) (dp_cond d)).
Proof.
  intros I m d d' C H E e. unfold derived_instantiate in E. apply bind_Ok in E as (p & P & E). apply bind_Ok in E as (c & Ec & E).
  destruct p as [n ts| | | | | | | | |]; try discriminate. injection E as <-.
  destruct (H _ (or_introl eq_refl)) as (A1 & A2 & A3). destruct (H _ (or_intror eq_refl)) as (B1 & B2 & B3).
  split; apply holds_inst; auto. apply C_pred.
Qed.
Print Assumptions C16_derived_partial.
Example C16_derived_ex : let x := mkVar "x" [] in let m := [(TVar x, TConst "t" None)] in
  let d := mkDerived "p" [TVar x] (FBin OAnd [FPred "q" [TVar x]; FNot (FPred "r" [TVar x])]) in
  derived_instantiate m d = Ok (mkDerived "p" [TConst "t" None] (FBin OAnd [FPred "q" [TConst "t" None]; FNot (FPred "r" [TConst "t" None])])).
Proof. reflexivity. Qed.

(** * C20: what is given beside the domain must agree with it *)
Definition agrees (d : domain) (dn : option string) (rs : option (list req)) : Prop :=
  (forall n, dn = Some n -> n = d_name d) /\ (forall l, rs = Some l -> forall r, In r l <-> In r (d_reqs d)).
Lemma reqs_agree l d : set_eqb req_eqb (dedup req_eqb l) (d_reqs d) = true <-> forall r, In r l <-> In r (d_reqs d).
Proof.
  rewrite (set_eqb_spec _ req_eqb_equiv). split.
  - intros H r. specialize (H r). rewrite (memb_dedup _ req_eqb_equiv) in H. rewrite <- !has_In. unfold has. now rewrite H.
  - intros H r. rewrite (memb_dedup _ req_eqb_equiv). specialize (H r). rewrite <- !has_In in H. unfold has in H.
    destruct (memb req_eqb r l), (memb req_eqb r (d_reqs d)); intuition congruence.
Qed.
Theorem C20_given_together : forall n d dn rs objs init goal m p,
  mk_problem n (Some d) dn rs objs init goal m = Ok p -> agrees d dn rs.
Proof.
  intros n d dn rs objs init goal m p H. unfold mk_problem in H. apply bind_Ok in H as (n' & _ & H). apply bind_Ok in H as (dd & D & H). apply bind_Ok in H as (rs' & R & _). split.
  - intros x ->. unfold parse_domain_and_name in D. apply bind_Ok in D as (u & D & _). unfold check in D. destruct (String.eqb (d_name d) x) eqn:E; [|discriminate]. now apply String.eqb_eq in E.
  - intros l ->. unfold parse_requirements in R. apply bind_Ok in R as (u & R & _). unfold check in R. destruct (set_eqb req_eqb _ _) eqn:E; [|discriminate]. now apply reqs_agree.
Qed.
Print Assumptions C20_given_together.
Theorem C20_disagreement : forall n d dn rs objs init goal m, domain_built d -> legal_name n -> ~ agrees d dn rs ->
  mk_problem n (Some d) dn rs objs init goal m = Err ValueError.
Proof.
  intros n d dn rs objs init goal m B L A. unfold mk_problem. rewrite (proj2 (parse_name_Ok n) L). cbn [bind].
  assert (N : parse_name (d_name d) = Ok (d_name d)).
  { destruct B as (n0 & rs0 & ty & cs & ps & dps & fs & acts & B). unfold mk_domain in B. apply bind_Ok in B as (n1 & N & B). apply bind_Ok in B as (t & _ & B). apply bind_Ok in B as (u & _ & B). apply bind_Ok in B as (u' & _ & B).
    injection B as <-. cbn [d_name]. apply parse_name_Ok' in N as [-> N]. now apply parse_name_Ok. }
  assert (Q : parse_domain_and_name (Some d) dn = Err ValueError \/ (exists y, parse_domain_and_name (Some d) dn = Ok y) /\ forall x, dn = Some x -> x = d_name d).
  { destruct dn as [x|]; cbn [parse_domain_and_name]; [|right; split; [eauto|discriminate]]. unfold check. destruct (String.eqb (d_name d) x) eqn:E; [|now left]. apply String.eqb_eq in E as <-. cbn [bind]. rewrite N. cbn [bind]. right. split; [eauto|congruence]. }
  destruct Q as [->|[(y & ->) Q]]; [reflexivity|]. cbn [bind].
  destruct rs as [l|]; [|exfalso; apply A; split; [exact Q|discriminate]]. cbn [parse_requirements]. unfold check. destruct (set_eqb req_eqb _ _) eqn:E; [|reflexivity].
  exfalso. apply A. split; [exact Q|]. intros l' [= <-]. now apply reqs_agree.
Qed.
Print Assumptions C20_disagreement.
Example C20_given_ex : exists d, domain_built d /\ legal_name "p" /\ ~ agrees d (Some "d") (Some [STRIPS]) /\
  agrees d (Some "d") (Some [TYPING; STRIPS; TYPING]) /\ exists p, mk_problem "p" (Some d) (Some "d") (Some [TYPING; STRIPS; TYPING]) [] [] None None = Ok p.
Proof.
  exists (mkDomain "d" [STRIPS; TYPING] [] [] [] [] [] []). split; [exists "d", [STRIPS; TYPING], None, [], [], [], [], []; reflexivity|].
  split; [apply parse_name_Ok; reflexivity|]. split; [|split].
  - intros [_ H]. destruct (H _ eq_refl TYPING) as [_ K]. cbn in K. destruct K as [|[]]; [auto|discriminate].
  - split; [intros x [= <-]; reflexivity|]. intros l [= <-] r. cbn. tauto.
  - eexists. reflexivity.
Qed.
