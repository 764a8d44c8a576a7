(** What a problem text is made of. *)
From Coq Require Import String List Bool Arith Lia.
From Verif Require Import Py Names Reqs Logic Validation Core Lexer TypedList UpdateTags Parser.
From Verif Require Import Spec_Parse Py_facts Core_facts.
Import ListNotations.
Open Scope string_scope.
Open Scope list_scope.

Lemma section_inv k l o r : section k l = (o, r) -> l = opt_section k o ++ r.
Proof.
  unfold section, opt_section. destruct l as [|[|[|k' body]] l'];
    try (intros H; inversion H; subst; reflexivity).
  destruct (is_kw k k') eqn:K; intros H; inversion H; subst; auto.
  destruct k' as [[]|]; try discriminate. apply String.eqb_eq in K. subst. reflexivity.
Qed.

Definition problem_sections (o1 o2 : option (list sexp)) (inits : list sexp) (g : sexp)
           (o5 : option (list sexp)) : list sexp :=
  opt_section ":requirements" o1 ++ opt_section ":objects" o2
  ++ section_sx ":init" inits :: section_sx ":goal" [g] :: opt_section ":metric" o5.

Lemma problem_rule_inv objs0 n dn l0 p : problem_rule objs0 n dn l0 = Ok p ->
  exists o1 o2 inits g o5 rs os init goal m,
    l0 = problem_sections o1 o2 inits g o5
    /\ opt_res require_keys o1 = Ok rs
    /\ opt_res objects_section o2 = Ok os
    /\ mapR (init_el (match os with Some d => d | None => objs0 end)) inits = Ok init
    /\ gd problem_ctx g = Ok goal
    /\ opt_res metric_spec o5 = Ok m
    /\ mk_problem n None (Some dn) rs (match os with Some d => map snd d | None => [] end)
                  init (Some goal) m = Ok p.
Proof.
  unfold problem_rule. destruct (section ":requirements" l0) as [o1 l1] eqn:S1.
  intros H. apply bind_Ok in H as (rs & R & H).
  destruct (section ":objects" l1) as [o2 l2] eqn:S2. apply bind_Ok in H as (os & O & H).
  destruct (section ":init" l2) as [[inits|] l3] eqn:S3; [|discriminate].
  apply bind_Ok in H as (init & I & H).
  destruct (section ":goal" l3) as [[[|g [|]]|] l4] eqn:S4; try discriminate.
  apply bind_Ok in H as (goal & G & H). destruct (section ":metric" l4) as [o5 l5] eqn:S5.
  apply bind_Ok in H as (m & M & H). destruct l5; [|discriminate].
  apply section_inv in S1, S2, S3, S4, S5. subst.
  exists o1, o2, inits, g, o5, rs, os, init, goal, m. repeat split; auto.
  unfold problem_sections. cbn [opt_section app]. now rewrite app_nil_r.
Qed.

Lemma section_hit k o r : (forall b r', r <> section_sx k b :: r') ->
  section k (opt_section k o ++ r) = (o, r).
Proof.
  intros H. destruct o as [l|]; cbn [opt_section app].
  - unfold section, section_sx. cbn [is_kw]. now rewrite String.eqb_refl.
  - unfold section. destruct r as [|[|[|k' body]] r']; auto.
    destruct (is_kw k k') eqn:K; auto. destruct k' as [[]|]; try discriminate.
    apply String.eqb_eq in K. subst. exfalso. eapply H. reflexivity.
Qed.
Lemma problem_rule_sections objs0 n dn o1 o2 inits g o5 :
  problem_rule objs0 n dn (problem_sections o1 o2 inits g o5) =
  (let* rs := opt_res require_keys o1 in
   let* os := opt_res objects_section o2 in
   let* init := mapR (init_el (match os with Some d => d | None => objs0 end)) inits in
   let* goal := gd problem_ctx g in
   let* m := opt_res metric_spec o5 in
   mk_problem n None (Some dn) rs (match os with Some d => map snd d | None => [] end)
              init (Some goal) m).
Proof.
  unfold problem_rule, problem_sections. rewrite section_hit.
  2:{ intros b r'. destruct o2; discriminate. }
  rewrite section_hit by discriminate.
  change (section_sx ":init" inits :: section_sx ":goal" [g] :: opt_section ":metric" o5)
    with (opt_section ":init" (Some inits) ++ (section_sx ":goal" [g] :: opt_section ":metric" o5)).
  rewrite section_hit by discriminate.
  change (section_sx ":goal" [g] :: opt_section ":metric" o5)
    with (opt_section ":goal" (Some [g]) ++ opt_section ":metric" o5).
  rewrite section_hit by (destruct o5; discriminate).
  replace (section ":metric" (opt_section ":metric" o5)) with (o5, @nil sexp).
  2:{ rewrite <- (section_hit ":metric" o5 []) by discriminate. now rewrite app_nil_r. }
  reflexivity.
Qed.

Lemma parse_problem_text s n dn l : problem_text s n dn l -> parse_problem s = problem_rule [] n dn l.
Proof.
  unfold problem_text, parse_problem, parse_problem_from. intros ->. reflexivity.
Qed.
Lemma parse_problem_inv s p : parse_problem s = Ok p ->
  exists n dn l, problem_text s n dn l /\ problem_rule [] n dn l = Ok p.
Proof.
  unfold parse_problem, parse_problem_from, problem_text. destruct (read_text s) as [l|]; [|discriminate].
  unfold parse_problem_sexp.
  destruct l as [|x l]; try discriminate. destruct x as [|x]; try discriminate.
  destruct x as [|k1 x]; try discriminate. destruct k1 as [k1|]; try discriminate.
  destruct k1 as [| | |k1| | | |]; try discriminate.
  destruct x as [|x1 x]; try discriminate. destruct x1 as [|x1]; try discriminate.
  destruct x1 as [|k2 x1]; try discriminate. destruct k2 as [k2|]; try discriminate.
  destruct k2 as [| | |k2| | | |]; try discriminate.
  destruct x1 as [|n x1]; try discriminate. destruct n as [n|]; try discriminate.
  destruct n as [| | |n| | | |]; try discriminate. destruct x1; try discriminate.
  destruct x as [|x2 secs]; try discriminate. destruct x2 as [|x2]; try discriminate.
  destruct x2 as [|k3 x2]; try discriminate. destruct x2 as [|dn x2]; try discriminate.
  destruct dn as [dn|]; try discriminate. destruct dn as [| | |dn| | | |]; try discriminate.
  destruct x2; try discriminate. destruct l; try discriminate.
  destruct (String.eqb_spec k1 "define") as [->|]; [|discriminate].
  destruct (String.eqb_spec k2 "problem") as [->|]; [|discriminate].
  cbn [andb]. destruct (is_kw ":domain" k3) eqn:K; [|discriminate].
  destruct k3 as [[]|]; try discriminate. apply String.eqb_eq in K. subst.
  intros H. exists n, dn, secs. auto.
Qed.
Lemma problem_text_unique s n dn l n' dn' l' :
  problem_text s n dn l -> problem_text s n' dn' l' -> n = n' /\ dn = dn' /\ l = l'.
Proof. unfold problem_text. intros -> [= <- <- <-]. auto. Qed.

Lemma mk_problem_fields n d dn rs objs init goal m p :
  mk_problem n d dn rs objs init goal m = Ok p ->
  p_init p = dedup form_eqb init
  /\ p_goal p = (match goal with Some g => g | None => mk_and [] end)
  /\ p_metric p = m /\ p_objects p = dedup const_eqb objs /\ p_name p = n.
Proof.
  unfold mk_problem. intros H. apply bind_Ok in H as (n' & N & H). apply bind_Ok in H as ((d', dn') & H1 & H).
  apply bind_Ok in H as (rs' & _ & H). apply bind_Ok in H as ([] & H2 & H).
  apply bind_Ok in H as ([] & H3 & H). inversion H; subst. cbn. repeat split; auto.
  now apply Names_facts.parse_name_id.
Qed.
