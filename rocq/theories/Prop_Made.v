(** C80: the problems that the constructor accepts.  C81: predicates and functions called with terms. *)
From Coq Require Import String List Bool Arith Lia.
From Verif Require Import Py Names Reqs Logic Validation Core Sem Spec Spec_Core
  Py_facts Logic_facts Names_facts Order_facts Inst_facts Core_facts Validation_facts Copy_facts Listing_facts Prop_Given Spec_Made.
Import ListNotations.
Open Scope string_scope.
Open Scope list_scope.

Lemma literal_spec f : is_literal f = true <-> literal f.
Proof.
  assert (A : forall f, is_atomic f = true <-> atomic f).
  { intros g. split; [destruct g; cbn; try discriminate; intros _; constructor|]. intros H. now inversion H. }
  unfold is_literal, literal. rewrite orb_true_iff, A. split; intros [H|H]; auto; right.
  - destruct f; try discriminate. exists f. split; auto. now apply A.
  - destruct H as (g & -> & H). now apply A.
Qed.
Lemma literals_spec init : forallb is_literal (dedup form_eqb init) = true <-> forall f, In f init -> literal f.
Proof.
  rewrite forallb_forall. split.
  - intros L x X. apply literal_spec.
    assert (Y : memb form_eqb x (dedup form_eqb init) = true).
    { rewrite (memb_dedup _ form_eqb_equiv). unfold memb. apply existsb_exists. exists x. split; auto. apply form_eqb_refl. }
    unfold memb in Y. apply existsb_exists in Y as (y & Y & E). rewrite (literal_eqb _ _ E). auto.
  - intros L x X. apply literal_spec, L. now apply dedup_In in X.
Qed.

(** * C80 *)
Definition problem_of n d dn rs objs init goal m : problem :=
  mkProblem n d dn rs (dedup const_eqb objs) (dedup form_eqb init) (goal_or_true goal) m.
Theorem C80_accepted_iff : forall n d dn rs objs init goal m p, (forall x, d = Some x -> domain_built x) ->
  mk_problem n d dn rs objs init goal m = Ok p <->
  legal_name n /\ (forall f, In f init -> literal f) /\
  match d with
  | Some d => agrees d dn rs /\ p = problem_of n (Some d) (d_name d) (Some (d_reqs d)) objs init goal m /\ problem_typed p d
  | None => exists x, dn = Some x /\ legal_name x /\ p = problem_of n None x (option_map (dedup req_eqb) rs) objs init goal m
  end.
Proof.
  intros n d dn rs objs init goal m p B. destruct d as [d|].
  - specialize (B d eq_refl). split.
    + intros H. pose proof (C20_given_together _ _ _ _ _ _ _ _ _ H) as G. unfold mk_problem in H. apply bind_Ok in H as (n' & N & H). apply parse_name_Ok' in N as [-> N].
      apply bind_Ok in H as (dd & D & H). apply bind_Ok in H as (r & R & H). apply bind_Ok in H as ([] & L & H). apply check_Ok in L. pose proof (proj1 (literals_spec init) L) as LL. clear L. rename LL into L.
      apply bind_Ok in H as ([] & K & H). injection H as <-. split; [exact N|]. split; [exact L|]. split; [exact G|].
      assert (E : dd = (Some d, d_name d)).
      { unfold parse_domain_and_name in D. destruct dn as [x|]; [|now injection D as <-]. apply bind_Ok in D as (_ & _ & D). apply bind_Ok in D as (y & Y & D). apply parse_name_Ok' in Y as [-> _].
        injection D as <-. now rewrite (proj1 G x eq_refl). }
      assert (E2 : r = Some (d_reqs d)).
      { unfold parse_requirements in R. destruct rs; [|now injection R as <-]. apply bind_Ok in R as (_ & _ & R). now injection R as <-. }
      subst. unfold problem_of. split; [destruct goal; reflexivity|]. cbn [fst snd] in *. unfold problem_check_consistency in K. cbn [p_domain] in K. now apply problem_check_Ok in K as (_ & _ & K).
    + intros (N & L & G & -> & T). unfold mk_problem. rewrite (proj2 (parse_name_Ok n) N). cbn [bind].
      assert (DN : legal_name (d_name d)).
      { destruct B as (n0 & rs0 & ty & cs & ps & dps & fs & acts & B). unfold mk_domain in B. apply bind_Ok in B as (n1 & N1 & B). apply bind_Ok in B as (t & _ & B). apply bind_Ok in B as (u & _ & B). apply bind_Ok in B as (u' & _ & B).
        injection B as <-. cbn [d_name]. now apply parse_name_Ok' in N1 as [-> N1]. }
      assert (D : parse_domain_and_name (Some d) dn = Ok (Some d, d_name d)).
      { destruct G as [G _]. destruct dn as [x|]; [|reflexivity]. rewrite (G x eq_refl). cbn [parse_domain_and_name]. rewrite String.eqb_refl. cbn [check bind]. now rewrite (proj2 (parse_name_Ok _) DN). }
      rewrite D. cbn [bind].
      assert (R : parse_requirements (Some d) rs = Ok (Some (d_reqs d))).
      { destruct G as [_ G]. destruct rs as [l|]; [|reflexivity]. cbn [parse_requirements]. rewrite (proj2 (reqs_agree l d) (G l eq_refl)). reflexivity. }
      rewrite R. cbn [bind fst snd]. rewrite (proj2 (literals_spec init) L). cbn [check bind].
      assert (E : (match goal with Some g => g | None => mk_and [] end) = goal_or_true goal) by (destruct goal; reflexivity). rewrite E. fold (problem_of n (Some d) (d_name d) (Some (d_reqs d)) objs init goal m).
      assert (K : problem_check_consistency (problem_of n (Some d) (d_name d) (Some (d_reqs d)) objs init goal m) = Ok tt).
      { unfold problem_check_consistency. cbn [p_domain problem_of]. apply problem_check_Ok; auto. split; [reflexivity|]. split; [|exact T]. intros l [= <-]. apply incl_refl. }
      now rewrite K.
  - clear B. unfold mk_problem. split.
    + intros H. apply bind_Ok in H as (n' & N & H). apply parse_name_Ok' in N as [-> N].
      apply bind_Ok in H as (dd & D & H). apply bind_Ok in H as (r & R & H). apply bind_Ok in H as ([] & L & H). apply check_Ok in L. pose proof (proj1 (literals_spec init) L) as LL. clear L. rename LL into L.
      apply bind_Ok in H as ([] & K & H). injection H as <-. split; [exact N|]. split; [exact L|].
      destruct dn as [x|]; [|discriminate]. cbn [parse_domain_and_name] in D. apply bind_Ok in D as (y & Y & D). apply parse_name_Ok' in Y as [-> Y]. injection D as <-.
      exists x. split; [reflexivity|]. split; [exact Y|]. unfold problem_of. destruct rs; injection R as <-; destruct goal; reflexivity.
    + intros (N & L & x & -> & X & ->). rewrite (proj2 (parse_name_Ok n) N). cbn [bind parse_domain_and_name]. rewrite (proj2 (parse_name_Ok x) X). cbn [bind fst snd].
      assert (R : parse_requirements None rs = Ok (option_map (dedup req_eqb) rs)) by (destruct rs; reflexivity). rewrite R. cbn [bind]. rewrite (proj2 (literals_spec init) L). cbn [check bind].
      unfold problem_check_consistency. cbn [p_domain bind]. unfold problem_of. destruct goal; reflexivity.
Qed.
Print Assumptions C80_accepted_iff.

Lemma problem_check_err p d e : domain_built d -> problem_check p d = Err e -> e = PDDLValidationError.
Proof.
  intros B H. destruct (domain_built_types d B) as (ND & TL & N). unfold problem_check in H. rewrite (mk_types_skip _ _ ND TL N) in H.
  unfold check in H. destruct (String.eqb _ _); cbn [bind] in H; [|now injection H as <-].
  destruct (match p_reqs p with None => true | Some rs => subset req_eqb rs (d_reqs d) end); cbn [bind] in H; [|now injection H as <-].
  destruct (check_terms _ _ _) as [[]|e1] eqn:T; cbn [bind] in H; [|injection H as <-; eapply check_terms_err; eassumption].
  destruct (iterR _ _) as [[]|e1] eqn:Q; cbn [bind] in H.
  - eapply check_form_err; eassumption.
  - injection H as <-. clear - Q N. induction (p_init p) as [|f l IH]; [discriminate|]. cbn in Q. destruct (check_form (d_types d) (d_reqs d) f) as [[]|e] eqn:F; cbn [bind] in Q; auto.
    injection Q as <-. eapply check_form_err; eassumption.
Qed.
(** a rejected problem raises ValueError or PDDLValidationError *)
Theorem C80_error : forall n d dn rs objs init goal m e, (forall x, d = Some x -> domain_built x) ->
  mk_problem n d dn rs objs init goal m = Err e -> e = ValueError \/ e = PDDLValidationError.
Proof.
  intros n d dn rs objs init goal m e B H. unfold mk_problem in H.
  destruct (parse_name n) as [n'|e1] eqn:N; cbn [bind] in H; [|injection H as <-; apply check_name_err in N; tauto].
  destruct (parse_domain_and_name d dn) as [dd|e1] eqn:D; cbn [bind] in H.
  2:{ injection H as <-. unfold parse_domain_and_name in D. destruct d as [d|], dn as [x|]; try discriminate; try (injection D as <-; auto; fail).
      - unfold check in D. destruct (String.eqb (d_name d) x); cbn [bind] in D; [|injection D as <-; auto].
        destruct (parse_name x) eqn:X; cbn [bind] in D; [discriminate|]. injection D as <-. apply check_name_err in X. tauto.
      - destruct (parse_name x) eqn:X; cbn [bind] in D; [discriminate|]. injection D as <-. apply check_name_err in X. tauto. }
  destruct (parse_requirements d rs) as [r|e1] eqn:R; cbn [bind] in H.
  2:{ injection H as <-. unfold parse_requirements in R. destruct rs as [l|], d as [d|]; try discriminate. unfold check in R. destruct (set_eqb _ _ _); cbn [bind] in R; [discriminate|]. injection R as <-. auto. }
  destruct (forallb is_literal (dedup form_eqb init)); cbn [check bind] in H; [|injection H as <-; auto].
  destruct (problem_check_consistency _) as [[]|e1] eqn:K; cbn [bind] in H; [discriminate|]. injection H as <-. right.
  unfold problem_check_consistency in K. cbn [p_domain] in K. destruct (fst dd) as [d'|] eqn:F; [|discriminate].
  assert (d = Some d').
  { unfold parse_domain_and_name in D. destruct d as [d|], dn as [x|]; try discriminate.
    - apply bind_Ok in D as (_ & _ & D). apply bind_Ok in D as (y & _ & D). injection D as <-. exact F.
    - injection D as <-. exact F.
    - apply bind_Ok in D as (y & _ & D). injection D as <-. discriminate. }
  eapply problem_check_err; [apply B; eassumption|exact K].
Qed.
Print Assumptions C80_error.
(** a formula that is not a literal is noticed whatever else is given *)
Theorem C80_not_a_literal : forall n d dn rs objs init goal m f, In f init -> ~ literal f -> exists e, mk_problem n d dn rs objs init goal m = Err e.
Proof.
  intros n d dn rs objs init goal m f I NL. destruct (mk_problem n d dn rs objs init goal m) as [p|e] eqn:H; [|eauto]. destruct NL. unfold mk_problem in H.
  apply bind_Ok in H as (n' & _ & H). apply bind_Ok in H as (dd & _ & H). apply bind_Ok in H as (r & _ & H). apply bind_Ok in H as ([] & L & H). apply check_Ok in L. revert f I. now apply literals_spec.
Qed.
Print Assumptions C80_not_a_literal.
Example E80_accepted : exists d p, domain_built d /\ mk_problem "p" (Some d) None None [("o", Some "t")] [FPred "q" [TConst "o" (Some "t")]; FNot (FPred "r" [])] None None = Ok p /\ p_init p <> [].
Proof.
  exists (mkDomain "d" [TYPING] [("t", None)] [] [] [] [] []). eexists. split; [exists "d", [TYPING], (Some [("t", None)]), [], [], [], [], []; reflexivity|]. split; [reflexivity|discriminate].
Qed.
Example E80_rejected : mk_problem "p" None (Some "d") None [] [FBin OAnd [FPred "q" []; FPred "r" []]] None None = Err PDDLValidationError
  /\ mk_problem "p" None (Some "d") None [] [FNot (FNot (FPred "q" []))] None None = Err PDDLValidationError.
Proof. split; reflexivity. Qed.

(** * C81 *)
Lemma same_types_spec us ts : length us = length ts -> (forallb (fun p => set_eqb String.eqb (t_tags (fst p)) (t_tags (snd p))) (combine us ts) = true <-> same_types us ts).
Proof.
  revert ts. induction us as [|u us IH]; intros [|t ts] L; try discriminate; cbn [combine forallb fst snd].
  - split; auto. constructor.
  - injection L as L. specialize (IH _ L). rewrite andb_true_iff, IH, set_eqb_string. split; [intros [A B]; now constructor|]. intros H. now inversion H.
Qed.
Theorem C81_predicate : forall n us ts f, mk_pred n us = Ok (FPred n us) ->
  pred_call (FPred n us) ts = Ok f <-> f = FPred n ts /\ length ts = length us /\ name_consistent ts.
Proof.
  intros n us ts f M. apply mk_pred_iff in M as (_ & N & _). cbn [pred_call]. split.
  - intros H. apply bind_Ok in H as ([] & L & H). apply check_Ok, Nat.eqb_eq in L. apply mk_pred_iff in H. tauto.
  - intros (-> & L & C). apply Nat.eqb_eq in L. rewrite L. cbn [check bind]. apply mk_pred_iff. auto.
Qed.
Print Assumptions C81_predicate.
Theorem C81_function : forall n us ts f, mk_numfun n us = Ok (FNumFun n us) ->
  numfun_call (FNumFun n us) ts = Ok f <-> f = FNumFun n ts /\ length ts = length us /\ same_types us ts.
Proof.
  intros n us ts f M. unfold mk_numfun in M. apply bind_Ok in M as (n' & N & _). apply parse_function_Ok' in N as [-> N]. cbn [numfun_call]. split.
  - intros H. apply bind_Ok in H as ([] & L & H). apply check_Ok, Nat.eqb_eq in L. apply bind_Ok in H as ([] & T & H). apply check_Ok in T. apply same_types_spec in T; auto.
    unfold mk_numfun in H. rewrite (proj2 (parse_function_Ok n) N) in H. cbn [bind] in H. injection H as <-. auto.
  - intros (-> & L & C). apply same_types_spec in C; auto. rewrite C. apply Nat.eqb_eq in L. rewrite L. cbn [check bind]. unfold mk_numfun. now rewrite (proj2 (parse_function_Ok n) N).
Qed.
Print Assumptions C81_function.
(** the errors: the wrong number of terms (or types) is an AssertionError, contradicting types of one name a ValueError *)
Theorem C81_error : forall n us ts e,
  (mk_pred n us = Ok (FPred n us) -> pred_call (FPred n us) ts = Err e -> e = if Nat.eqb (length ts) (length us) then ValueError else AssertionError) /\
  (mk_numfun n us = Ok (FNumFun n us) -> numfun_call (FNumFun n us) ts = Err e -> e = AssertionError).
Proof.
  intros n us ts e. split; intros M H.
  - apply mk_pred_iff in M as (_ & N & _). cbn [pred_call] in H. destruct (Nat.eqb (length ts) (length us)); cbn [check bind] in H; [|congruence].
    unfold mk_pred in H. rewrite (proj2 (parse_name_Ok n) N) in H. cbn [bind] in H. unfold check_terms_consistency in H. destruct (consistency_from_err ts []) as [E|E]; rewrite E in H; cbn [bind] in H; congruence.
  - unfold mk_numfun in M. apply bind_Ok in M as (n' & N & _). apply parse_function_Ok' in N as [-> N]. cbn [numfun_call] in H.
    destruct (Nat.eqb (length ts) (length us)); cbn [check bind] in H; [|congruence]. destruct (forallb _ _); cbn [check bind] in H; [|congruence].
    unfold mk_numfun in H. rewrite (proj2 (parse_function_Ok n) N) in H. discriminate.
Qed.
Print Assumptions C81_error.

(** calling is instantiating the variables *)
Lemma inst_distinct vs : NoDup (map v_name vs) -> forall ts, length ts = length vs -> map (inst_term (combine (map TVar vs) ts)) (map TVar vs) = ts.
Proof.
  induction vs as [|v vs IH]; intros ND [|t ts] L; try discriminate; [reflexivity|]. injection L as L. inversion ND as [|? ? NI ND']; subst.
  cbn [map combine inst_term dict_get]. rewrite (eqv_refl _ term_eqb_equiv). f_equal. rewrite <- (IH ND' ts L) at 2. rewrite !map_map. apply map_ext_in. intros w W. cbn [inst_term dict_get].
  destruct (term_eqb (TVar w) (TVar v)) eqn:E; [|reflexivity]. destruct NI. cbn in E. unfold var_eqb in E. apply andb_true_iff in E as [E _]. apply String.eqb_eq in E. apply in_map_iff. exists w. split; auto.
Qed.
Theorem C81_call_instantiates : forall n us ts, distinct_variables us -> length ts = length us ->
  pred_call (FPred n us) ts = instantiate (combine us ts) (FPred n us) /\
  (same_types us ts -> numfun_call (FNumFun n us) ts = instantiate (combine us ts) (FNumFun n us)).
Proof.
  intros n us ts (vs & -> & ND) L. assert (Q : map (inst_term (combine (map TVar vs) ts)) (map TVar vs) = ts) by (apply inst_distinct; auto; now rewrite map_length in L).
  cbn [pred_call numfun_call instantiate]. rewrite Q. pose proof L as L'. apply Nat.eqb_eq in L'. rewrite L'. cbn [check bind]. split; [reflexivity|].
  intros T. apply same_types_spec in T; auto. rewrite T. reflexivity.
Qed.
Print Assumptions C81_call_instantiates.

(** the types of the terms of a predicate are not compared, unlike those of a function *)
Theorem C81_types_refuted : ~ (forall n us ts f, mk_pred n us = Ok (FPred n us) -> pred_call (FPred n us) ts = Ok f -> same_types us ts).
Proof.
  intros H. assert (K := H "p" [TVar (mkVar "x" ["a"])] [TConst "k" (Some "b")] _ eq_refl eq_refl). inversion K as [|? ? ? ? T]; subst. destruct (T "a") as [T' _]. destruct (T' (or_introl eq_refl)) as [E|[]]. discriminate.
Qed.
Print Assumptions C81_types_refuted.
Example E81 : let x := TVar (mkVar "x" ["a"]) in let y := TVar (mkVar "y" []) in let k := TConst "k" (Some "a") in let l := TConst "l" None in
  distinct_variables [x; y] /\ same_types [x; y] [k; l] /\
  pred_call (FPred "p" [x; y]) [k; l] = Ok (FPred "p" [k; l]) /\ numfun_call (FNumFun "f" [x; y]) [k; l] = Ok (FNumFun "f" [k; l]) /\
  numfun_call (FNumFun "f" [x; y]) [l; k] = Err AssertionError /\ pred_call (FPred "p" [x; y]) [k] = Err AssertionError /\
  pred_call (FPred "p" [x; y]) [x; TVar (mkVar "x" ["b"])] = Err ValueError.
Proof.
  cbv zeta. split; [exists [mkVar "x" ["a"]; mkVar "y" []]; split; auto; repeat constructor; cbn; intuition discriminate|].
  split; [apply Forall2_cons; [intros g; reflexivity|apply Forall2_cons; [intros g; reflexivity|apply Forall2_nil]]|]. repeat split; reflexivity.
Qed.
