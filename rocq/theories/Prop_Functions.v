(** C44 for the section :functions. *)
From Coq Require Import String List Bool Arith Lia.
From Verif Require Import Py Py_facts Names Names_facts Reqs Order_facts Logic Logic_facts Validation Validation_facts Core Core_facts CoreEq_facts Lexer TypedList UpdateTags Parser.
From Verif Require Import Spec Spec_Core Spec_Parse Spec_Declared Spec_Apart Spec_Listing.
From Verif Require Import GD_facts Parse_facts TypedList_facts Declared_facts Domain_facts Problem_facts Apart_facts FormatDomain_facts Grow_facts Listing_facts ListingText_facts.
Import ListNotations.
Open Scope string_scope.
Open Scope list_scope.

(** what the items of a section :functions declare: each a function with typed variables, followed
    by [- number] or not *)
Definition declares_functions (l : list sexp) (fs : functions_dict) : Prop :=
  l <> [] /\ exists out, written_functions l out /\
    Forall2 (fun x f => atomic_function_skeleton (fst x) = Ok (fst f) /\ snd x = snd f) out fs.
(** two of them are equal: the same name and the same variables with the same types *)
Definition repeats_a_function (fs : functions_dict) : Prop :=
  exists l1 f l2 g l3, fs = l1 ++ f :: l2 ++ g :: l3 /\ atom_eqb (fst f) (fst g) = true.

Lemma repeats_NoDupE fs : ~ repeats_a_function fs <-> NoDupE atom_eqb (map fst fs).
Proof.
  split.
  - induction fs as [|f fs IH]; intros H; cbn [map]; constructor.
    + destruct (memb atom_eqb (fst f) (map fst fs)) eqn:E; [|reflexivity]. exfalso. apply H.
      unfold memb in E. apply existsb_exists in E as (x & X & E). apply in_map_iff in X as (g & <- & X).
      apply in_split in X as (l2 & l3 & ->). exists [], f, l2, g, l3. auto.
    + apply IH. intros (l1 & a & l2 & b & l3 & -> & E). apply H. exists (f :: l1), a, l2, b, l3. auto.
  - intros N (l1 & f & l2 & g & l3 & -> & E). rewrite map_app in N. cbn [map] in N. induction l1 as [|x l1 IH]; cbn [map app] in N.
    + inversion N as [|? ? M _]; subst. rewrite map_app in M. cbn [map] in M. unfold memb in M. rewrite existsb_app in M. cbn [existsb] in M.
      rewrite E, orb_true_r in M. discriminate.
    + inversion N; subst. auto.
Qed.

Lemma functions_repeated l fs : declares_functions l fs -> repeats_a_function fs -> functions_section l = Err TypeError.
Proof.
  intros (NE & out & W & F) R. destruct (tlf_ok l out W) as (toks & T).
  { apply Forall_forall. intros x X. clear - F X. induction F as [|a b l m [H _] F IH]; [destruct X|]. destruct X as [<-|X]; eauto. }
  unfold functions_section. destruct l as [|s l]; [congruence|]. rewrite T. cbn [bind].
  destruct (tlf_assigned _ _ W _ T) as (groups & tail & -> & G & A).
  assert (E2 : map fst fs = map fst (assigned groups tail)).
  { clear - F A. revert fs F. induction A as [|x [a gs] l' m (E1 & E2 & _) A IH]; intros fs F; inversion F as [|? [f ty] ? fs' [H1 H2] F']; subst; auto.
    cbn [fst snd] in *. cbn [map fst]. f_equal; [congruence|apply (IH _ F')]. }
  rewrite parse_typed_list_all. rewrite (add_all_nodup atom_eqb atom_eqb_equiv).
  - cbn [app]. destruct (Nat.eqb _ _) eqn:L; [|reflexivity]. exfalso. apply Nat.eqb_eq in L. rewrite <- E2 in L.
    rewrite <- (map_length fst (assigned groups tail)), <- E2 in L. revert R. apply repeats_NoDupE.
    now apply (dedup_length_NoDupE atom_eqb _ atom_eqb_equiv).
  - intros a gs I. split; auto. unfold assigned in I. apply in_app_or in I as [I|I].
    + apply in_flat_map in I as ([it ty] & Gi & I). apply in_map_iff in I as (x & [= <- <-] & _).
      rewrite Forall_forall in G. specialize (G _ Gi). cbn in G. subst. constructor; auto using legal_number_type.
    + apply in_map_iff in I as (x & [= <- <-] & _). constructor.
  - apply assigned_nodups.
  - constructor.
Qed.

(** exactly when the functions of a section are accepted, and the error otherwise: TypeError instead
    of the PDDLParsingError that all other typed lists give (C44_partial) *)
Theorem C44_functions_exact : forall l fs, declares_functions l fs ->
  (functions_section l = Ok fs <-> ~ repeats_a_function fs)
  /\ (functions_section l = Err TypeError <-> repeats_a_function fs).
Proof.
  intros l fs D. assert (A : ~ repeats_a_function fs -> functions_section l = Ok fs).
  { intros N. destruct D as (NE & out & W & F). apply (functions_written l out); auto. now apply repeats_NoDupE. }
  pose proof (functions_repeated l fs D) as B. split; split; auto.
  - intros E R. rewrite (B R) in E. discriminate.
  - intros E. destruct (existsb (fun k => existsb (fun j => Nat.ltb k j &&
        match nth_error fs k, nth_error fs j with Some f, Some g => atom_eqb (fst f) (fst g) | _, _ => false end) (seq 0 (length fs))) (seq 0 (length fs))) eqn:Q.
    + apply existsb_exists in Q as (k & _ & Q). apply existsb_exists in Q as (j & _ & Q). apply andb_true_iff in Q as [L Q]. apply Nat.ltb_lt in L.
      destruct (nth_error fs k) as [f|] eqn:K; [|discriminate]. destruct (nth_error fs j) as [g|] eqn:J; [|discriminate].
      apply nth_error_split in K as (l1 & r & -> & <-). rewrite nth_error_app2 in J by lia.
      destruct (j - length l1) as [|i] eqn:I; [lia|]. cbn [nth_error] in J. apply nth_error_split in J as (l2 & l3 & -> & _).
      exists l1, f, l2, g, l3. auto.
    + exfalso. rewrite A in E; [discriminate|]. intros (l1 & f & l2 & g & l3 & -> & R).
      enough (true = false) by discriminate. rewrite <- Q. symmetry. apply existsb_exists. exists (length l1). split; [apply in_seq; rewrite app_length; cbn; lia|].
      apply existsb_exists. exists (length l1 + S (length l2)). split; [apply in_seq; rewrite !app_length; cbn; rewrite !app_length; cbn; lia|].
      apply andb_true_iff. split; [apply Nat.ltb_lt; lia|]. rewrite nth_error_app2 by lia. rewrite Nat.sub_diag. cbn [nth_error].
      rewrite nth_error_app2 by lia. replace (length l1 + S (length l2) - length l1) with (S (length l2)) by lia. cbn [nth_error].
      rewrite nth_error_app2 by lia. rewrite Nat.sub_diag. exact R.
Qed.
Print Assumptions C44_functions_exact.

(** whole texts in which the section comes after at most a :requirements section *)
Theorem C44_functions_texts : forall s st n keys rest l fs, require_keys keys <> Err LarkSyntaxError ->
  declares_functions l fs -> repeats_a_function fs ->
  domain_text s n (section_sx ":functions" l :: rest)
  \/ domain_text s n (section_sx ":requirements" keys :: section_sx ":functions" l :: rest) ->
  snd (parse_domain s st) = Err TypeError.
Proof.
  intros s st n keys rest l fs K D R T. apply require_keys_cases in K as (rs & K). pose proof (functions_repeated l fs D R) as B.
  unfold domain_text in T. unfold parse_domain.
  destruct T as [T|T]; rewrite T; unfold name_sx; cbn [parse_domain_sexp];
    cbn -[require_keys functions_section domain_rule]; unfold domain_rule, section_sx;
    cbn -[require_keys functions_section]; unfold bindM, optM, requirements, bindM, ret;
    rewrite ?K; cbn -[functions_section]; unfold bindM, ret; rewrite B; reflexivity.
Qed.
Print Assumptions C44_functions_texts.

(** [(fuel ?v) - number (cost) (fuel ?v)] *)
Example C44_functions_ex : exists l fs,
  l = [SList [name_sx "fuel"; SAtom QMARK; name_sx "v"]; dash; name_sx "number"; SList [name_sx "cost"]; SList [name_sx "fuel"; SAtom QMARK; name_sx "v"]]
  /\ declares_functions l fs /\ repeats_a_function fs
  /\ exists l' fs', l' = [SList [name_sx "fuel"; SAtom QMARK; name_sx "v"]; SList [name_sx "fuel"; SAtom QMARK; name_sx "w"]]
     /\ declares_functions l' fs' /\ ~ repeats_a_function fs'.
Proof.
  pose (f := fun x => ("fuel", [TVar (mkVar x [])]) : atom).
  eexists. exists [(f "v", Some "number"); (("cost", []), None); (f "v", None)]. split; [reflexivity|]. split.
  - split; [discriminate|]. eexists. split.
    + refine (wf_group [_] _ _ _ _ (wf_tail [_; _] _)); [discriminate|repeat constructor; eexists; reflexivity..].
    + cbn [map app]. repeat (constructor; [split; vm_compute; reflexivity|]). constructor.
  - split. { exists [], (f "v", Some "number"), [(("cost", []), None)], (f "v", None), []. split; vm_compute; reflexivity. }
    eexists. exists [(f "v", None); (f "w", None)]. split; [reflexivity|]. split.
    + split; [discriminate|]. eexists. split; [refine (wf_tail [_; _] _); repeat constructor; eexists; reflexivity|].
      cbn [map]. repeat (constructor; [split; vm_compute; reflexivity|]). constructor.
    + apply repeats_NoDupE. repeat constructor.
Qed.
