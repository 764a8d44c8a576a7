(** C18 for all domains, also those in which several actions have one name. *)
From Coq Require Import String List Bool Arith Permutation.
From Verif Require Import Py Names Reqs Logic Validation Core Spec Spec_Core Py_facts Logic_facts Names_facts Order_facts Inst_facts Core_facts.
Import ListNotations.
Open Scope string_scope.
Open Scope list_scope.

(** the last action with the name [n] in the order in which the set of actions is iterated *)
Definition last_named (n : string) (l : list action) (a : action) : Prop :=
  exists l1 l2, l = l1 ++ a :: l2 /\ a_name a = n /\ ~ In n (map a_name l2).
(** the arguments of a step are objects of the problem or constants of the domain *)
Definition known_arguments (d : domain) (p : problem) (st : string * list const) : Prop :=
  forall c, In c (snd st) -> exists o, (In o (p_objects p) \/ In o (d_constants d)) /\ fst o = fst c.
(** the same domain, its set of actions iterated in another order *)
Definition in_order (d : domain) (l : list action) : domain :=
  mkDomain (d_name d) (d_reqs d) (d_types d) (d_constants d) (d_predicates d) (d_derived d) (d_functions d) l.

Lemma last_get n l : forall a,
  dict_get String.eqb n (dict_of_list String.eqb (map (fun a => (a_name a, a)) l)) = Some a <-> last_named n l a.
Proof.
  intros a. rewrite (dict_get_of_list _ string_eqb_equiv). rewrite <- map_rev.
  replace (last_named n l a) with (last_named n (rev (rev l)) a) by now rewrite rev_involutive. generalize (rev l). clear l. intros l.
  induction l as [|b l IH]; cbn [rev map dict_get].
  - split; [discriminate|]. intros (l1 & l2 & E & _). destruct l1; discriminate.
  - cbn [fst snd]. destruct (String.eqb n (a_name b)) eqn:E.
    + apply String.eqb_eq in E. subst n. split.
      * intros [= <-]. exists (rev l), []. auto.
      * intros (l1 & l2 & Q & N & X). destruct l2 as [|c l2 _] using rev_ind; [apply app_inj_tail in Q as [_ ->]; reflexivity|].
        rewrite app_comm_cons, app_assoc in Q. apply app_inj_tail in Q as [_ <-]. exfalso. apply X. rewrite map_app. apply in_or_app. right. now left.
    + apply String.eqb_neq in E. rewrite IH. split.
      * intros (l1 & l2 & Q & N & X). exists l1, (l2 ++ [b]). rewrite Q, <- app_assoc. split; [reflexivity|]. split; [exact N|].
        rewrite map_app. intros I. apply in_app_or in I as [I|[I|[]]]; [now apply X|now apply E].
      * intros (l1 & l2 & Q & N & X). destruct l2 as [|c l2 _] using rev_ind; [apply app_inj_tail in Q as [_ <-]; now exfalso; apply E|].
        rewrite app_comm_cons, app_assoc in Q. apply app_inj_tail in Q as [-> <-]. exists l1, l2. split; [reflexivity|]. split; [exact N|].
        intros I. apply X. rewrite map_app. apply in_or_app. now left.
Qed.

(** exactly which plans are accepted *)
Theorem C18_exact : forall d p pl,
  plan_check pl d p = Ok tt <->
  forall st, In st pl -> exists a, last_named (fst st) (d_actions d) a
    /\ length (a_params a) = length (snd st) /\ known_arguments d p st.
Proof.
  intros d p pl. unfold plan_check. rewrite iterR_Ok, Forall_forall.
  assert (S : forall st, plan_check_step d p st = Ok tt <-> exists a, last_named (fst st) (d_actions d) a
     /\ length (a_params a) = length (snd st) /\ known_arguments d p st).
  { intros st. unfold plan_check_step, known_arguments. split.
    - intros H. apply bind_Ok in H as ([] & H1 & H). destruct (dict_get String.eqb (fst st) (name_to_schema d)) as [a|] eqn:G; [|discriminate].
      apply bind_Ok in H as ([] & H2 & H3). apply check_Ok in H2, H3. apply Nat.eqb_eq in H2. rewrite objects_In in H3.
      exists a. split; [now apply last_get|]. auto.
    - intros (a & G & L & O). assert (memb String.eqb (fst st) (map a_name (d_actions d)) = true) as ->.
      { apply memb_string_In. destruct G as (l1 & l2 & -> & <- & _). apply in_map. apply in_or_app. right. now left. }
      apply last_get in G. unfold name_to_schema. rewrite G, L, Nat.eqb_refl. cbn. apply check_Ok. now apply objects_In. }
  split; intros H st Hst; apply S; auto.
Qed.
Print Assumptions C18_exact.

Lemma has_last n : forall l, In n (map a_name l) -> exists a, last_named n l a.
Proof.
  induction l as [|b l IH]; intros H; [destruct H|]. destruct (in_dec string_dec n (map a_name l)) as [I|I].
  - destruct (IH I) as (a & l1 & l2 & -> & N & X). exists a, (b :: l1), l2. auto.
  - destruct H as [H|H]; [|now exfalso]. exists b, [], l. auto.
Qed.
Lemma some_last a l : In a l -> exists l', Permutation l l' /\ last_named (a_name a) l' a.
Proof.
  intros I. apply in_split in I as (l1 & l2 & ->). exists ((l1 ++ l2) ++ [a]). split.
  - rewrite <- Permutation_middle. apply Permutation_cons_append.
  - exists (l1 ++ l2), []. auto.
Qed.

(** the plans that are accepted whatever order the set of actions has *)
Theorem C18_every_order : forall d p pl,
  (forall l, Permutation (d_actions d) l -> plan_check pl (in_order d l) p = Ok tt) <->
  forall st, In st pl -> known_step d p st
    /\ forall a, In a (d_actions d) -> a_name a = fst st -> length (a_params a) = length (snd st).
Proof.
  intros d p pl. split.
  - intros H st Hst. assert (A : forall a, In a (d_actions d) -> a_name a = fst st -> length (a_params a) = length (snd st)).
    { intros a Ha N. destruct (some_last a _ Ha) as (l & P & L). specialize (H l P). rewrite C18_exact in H.
      destruct (H st Hst) as (b & B & Lb & _). cbn [in_order d_actions] in B. rewrite N in L. apply last_get in L, B. congruence. }
    split; [|exact A]. specialize (H _ (Permutation_refl _)). rewrite C18_exact in H. destruct (H st Hst) as (a & (l1 & l2 & E & N & _) & L & K).
    cbn [in_order d_actions] in E. exists a. split; [rewrite E; apply in_or_app; right; now left|]. auto.
  - intros H l P. apply C18_exact. intros st Hst. destruct (H st Hst) as ((a & Ha & N & _ & K) & A). cbn [in_order d_actions].
    destruct (has_last (fst st) l) as (b & B). { rewrite <- N. apply in_map. eapply Permutation_in; eauto. }
    exists b. split; [exact B|]. split; [|exact K]. destruct B as (l1 & l2 & E & Nb & _). apply A; auto.
    apply (Permutation_in b (Permutation_sym P)). rewrite E. apply in_or_app. right. now left.
Qed.
Print Assumptions C18_every_order.

Lemma partition_perm {A} (f : A -> bool) l : Permutation l (filter (fun x => negb (f x)) l ++ filter f l).
Proof.
  induction l as [|x l IH]; [constructor|]. cbn [filter]. destruct (f x); cbn [negb].
  - rewrite <- Permutation_middle. now constructor.
  - cbn [app]. now constructor.
Qed.

(** the plans that are accepted in some order *)
Theorem C18_some_order : forall d p pl,
  (exists l, Permutation (d_actions d) l /\ plan_check pl (in_order d l) p = Ok tt) <->
  (forall st, In st pl -> known_step d p st)
  /\ (forall st st', In st pl -> In st' pl -> fst st = fst st' -> length (snd st) = length (snd st')).
Proof.
  intros d p pl. split.
  - intros (l & P & H). rewrite C18_exact in H. cbn [in_order d_actions] in H. split.
    + intros st Hst. destruct (H st Hst) as (a & (l1 & l2 & E & N & _) & L & K). exists a. split; [|auto].
      apply (Permutation_in a (Permutation_sym P)). rewrite E. apply in_or_app. right. now left.
    + intros st st' I I' E. destruct (H st I) as (a & A & L & _). destruct (H st' I') as (b & B & L' & _).
      rewrite E in A. apply last_get in A, B. rewrite A in B. injection B as <-. congruence.
  - intros [H S].
    pose (arity := fun n => match find (fun st : string * list const => String.eqb (fst st) n) pl with Some st => length (snd st) | None => 0 end).
    assert (Ar : forall st, In st pl -> arity (fst st) = length (snd st)).
    { intros st I. unfold arity. destruct (find _ pl) as [st'|] eqn:F.
      - apply find_some in F as [I' E]. apply String.eqb_eq in E. now apply S.
      - apply (find_none _ _ F) in I. now rewrite String.eqb_refl in I. }
    pose (f := fun a => Nat.eqb (length (a_params a)) (arity (a_name a))).
    exists (filter (fun x => negb (f x)) (d_actions d) ++ filter f (d_actions d)). split; [apply partition_perm|].
    apply C18_exact. intros st I. cbn [in_order d_actions]. destruct (H st I) as (a & Ha & N & L & K).
    destruct (has_last (fst st) (filter f (d_actions d))) as (b & B).
    { rewrite <- N. apply in_map. apply filter_In. split; [exact Ha|]. unfold f. apply Nat.eqb_eq. rewrite N, Ar by exact I. exact L. }
    destruct B as (l1 & l2 & E & Nb & X). exists b. split; [|split; [|exact K]].
    + exists (filter (fun x => negb (f x)) (d_actions d) ++ l1), l2. rewrite E, <- app_assoc. auto.
    + assert (Ib : In b (filter f (d_actions d))) by (rewrite E; apply in_or_app; right; now left).
      apply filter_In in Ib as [_ Fb]. unfold f in Fb. apply Nat.eqb_eq in Fb. rewrite Fb, Nb. now apply Ar.
Qed.
Print Assumptions C18_some_order.

(** two actions of one name and different numbers of parameters; a plan that is accepted in one order
    and not in the other, and one that is accepted in both *)
Example C18_order_ex :
  let t := Some (FPred "p" []) in let x := TVar (mkVar "x" []) in
  let a := mkAction "a" [] t t in let b := mkAction "a" [x] t t in let c := mkAction "c" [x] t t in
  let d := mkDomain "d" [] [] [("k", None)] [] [] [] [a; b; c] in
  let p := mkProblem "p" None "d" None [] [] (FPred "p" []) None in
  domain_built d
  /\ plan_check [("a", []); ("c", [("k", None)])] d p = Err PDDLValidationError
  /\ plan_check [("a", []); ("c", [("k", None)])] (in_order d [b; c; a]) p = Ok tt
  /\ plan_check [("c", [("k", None)])] d p = Ok tt
  /\ last_named "a" (d_actions d) b.
Proof.
  intros t x a b c d p. split; [exists "d", [], None, [("k", None)], [], [], [], [a; b; c]; vm_compute; reflexivity|].
  repeat (split; [vm_compute; reflexivity|]). exists [a], [c]. split; [reflexivity|]. split; [reflexivity|]. intros [H|[]]. discriminate.
Qed.
