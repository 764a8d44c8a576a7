(** Facts for C52: the printed form of a parsed problem is accepted only if the problem is writable. *)
From Coq Require Import String List Bool Arith ZArith Lia.
From Verif Require Import Py Names Reqs Logic Built Validation Core Lexer Show Parser.
From Verif Require Import Spec Spec_Core Spec_Parse Spec_Print Spec_Numbers Spec_Text Spec_Problem Spec_Format.
From Verif Require Import Py_facts Names_facts Logic_facts Number_facts NumShow_facts Problem_facts FormText_facts ProblemText_facts Loose_facts Format_facts.
Import ListNotations.
Open Scope string_scope.
Open Scope list_scope.

(** ** the text can be read *)
Lemma plain_legal ts : Forall plain_term ts -> Forall term_legal ts.
Proof. intros F. eapply Forall_impl; [|exact F]. now intros t [(n & -> & L)|(n & -> & L)]. Qed.
Lemma lexp_readable f : lexp plain_term f -> readable f.
Proof.
  induction f using form_ind'; cbn [lexp readable]; try (intros []; fail).
  - intros [[L _] T]. split; auto using plain_legal.
  - destruct v as [z|m e|]; intros L; [| |now destruct L].
    + destruct (show_num_numeral (NInt z)) as (q & r & N & _); eauto using numeral_dotted.
    + destruct (show_num_numeral (NDec m e)) as (q & r & N & _); eauto using numeral_dotted.
  - intros L. apply fold_and_Forall'. rewrite Forall_forall in *. destruct k; try (now destruct L).
    + destruct ops as [|a [|]]; try (now destruct L). intros x [<-|[]]. apply H; cbn; auto.
    + apply fold_and_Forall in L. rewrite Forall_forall in L. auto.
    + apply fold_and_Forall in L. rewrite Forall_forall in L. auto.
    + apply fold_and_Forall in L. rewrite Forall_forall in L. auto.
Qed.
Lemma lcond_readable X f : lcond plain_term X f -> readable f.
Proof.
  induction f using form_ind'; cbn [lcond readable]; try (intros []; fail).
  - intros (L & T & _). split; [apply L|now apply plain_legal].
  - intros (_ & L & R & _). pose proof (plain_legal [l; r]) as P. assert (F : Forall plain_term [l; r]) by auto. apply P in F. inversion F as [|? ? F1 F2]; inversion F2; subst. auto.
  - intros L. apply fold_and_Forall'. apply Forall_forall.
    destruct k; try (now destruct L);
      try (destruct ops as [|a [|b [|]]]; try (now destruct L); destruct L as [La Lb];
           intros x [<-|[<-|[]]]; now apply lexp_readable).
    intros x I. rewrite Forall_forall in L. apply lexp_readable. auto.
  - intros L. apply fold_and_Forall'. rewrite Forall_forall in *. destruct k; try (now destruct L).
    + apply fold_and_Forall in L. rewrite Forall_forall in L. auto.
    + destruct L as [_ L]. apply fold_and_Forall in L. rewrite Forall_forall in L. auto.
    + destruct ops as [|a [|b [|]]]; try (now destruct L). destruct L as (_ & La & Lb).
      intros x [<-|[<-|[]]]; apply H; cbn; auto.
  - auto.
  - intros (_ & (L & _) & G). auto.
Qed.
Lemma lmet_readable f : lmet f -> readable f.
Proof.
  induction f using form_ind'; cbn [lmet readable]; try (intros []; fail).
  - intros [[L _] T]. split; auto using ground_legal.
  - destruct v as [z|m e|]; intros L; [now destruct L|now destruct L|exact L].
  - intros L. apply fold_and_Forall'. rewrite Forall_forall in *. destruct k; try (now destruct L).
    + destruct ops as [|a [|]]; try (now destruct L). intros x [<-|[]]. apply H; cbn; auto.
    + apply fold_and_Forall in L. rewrite Forall_forall in L. auto.
    + apply fold_and_Forall in L. rewrite Forall_forall in L. auto.
    + apply fold_and_Forall in L. rewrite Forall_forall in L. auto.
Qed.
Lemma loose_shown p : loose_problem p -> shown p.
Proof.
  intros [L1 L2 L3 [_ L4] L5]. constructor; auto.
  - rewrite (lcond_untyped _ _ L4). eapply lcond_readable, L4.
  - intros m M. destruct (L5 m M) as (O & _ & L). auto using lmet_readable.
Qed.

(** ** reading it back needs the right numbers of operands *)
Lemma mapR_map_In {A B C} (f : A -> B) (g : B -> res C) l ys x : mapR g (map f l) = Ok ys -> In x l -> exists y, g (f x) = Ok y.
Proof.
  revert ys. induction l as [|a l IH]; cbn; intros ys H I; [easy|]. apply bind_Ok in H as (y & Y & H). apply bind_Ok in H as (zs & Z & H).
  destruct I as [<-|I]; eauto.
Qed.
Lemma f_exp_back c f : lexp plain_term f -> forall g, f_exp c (form_sx f) = Ok g -> writable f.
Proof.
  induction f using form_ind'; cbn [lexp writable]; try (intros []; fail); try (intros; exact Logic.I).
  intros L g G. rewrite Forall_forall in H.
  assert (K : exists o, bfun_sx k = SAtom (TOp o) /\ o = bfun_symbol k) by (destruct k; try (now destruct L); eexists; split; reflexivity).
  destruct K as (o & K & E). cbn [form_sx] in G. rewrite K in G. cbn [f_exp] in G. rewrite map_length in G.
  destruct (arith_op o (length ops)) as [k'|] eqn:A; [|discriminate]. apply bind_Ok in G as (gs & M & _).
  rewrite fold_and_Forall'. split.
  - subst o. destruct k; try (now destruct L); cbn in A |- *; auto.
    + destruct ops as [|? [|]]; try discriminate. cbn. lia.
    + destruct ops as [|? [|]]; try discriminate. cbn. lia.
    + destruct ops as [|? [|? [|]]]; try discriminate. reflexivity.
  - apply Forall_forall. intros x X. destruct (mapR_map_In _ _ _ _ _ M X) as (y & Y). apply (H x X) with y; auto.
    destruct k; try (now destruct L); try (apply fold_and_Forall in L; rewrite Forall_forall in L; now apply L).
    destruct ops as [|a [|]]; try (now destruct L). destruct X as [<-|[]]. exact L.
Qed.
Lemma metric_back f : lmet f -> forall g, metric_f_exp (form_sx f) = Ok g -> writable f.
Proof.
  induction f using form_ind'; cbn [lmet writable]; try (intros []; fail); try (intros; exact Logic.I).
  intros L g G. rewrite Forall_forall in H.
  assert (K : exists o, bfun_sx k = SAtom (TOp o) /\ o = bfun_symbol k) by (destruct k; try (now destruct L); eexists; split; reflexivity).
  destruct K as (o & K & E). cbn [form_sx] in G. rewrite K in G. cbn [metric_f_exp] in G. rewrite map_length in G.
  destruct (arith_op o (length ops)) as [k'|] eqn:A; [|discriminate]. apply bind_Ok in G as (gs & M & _).
  rewrite fold_and_Forall'. split.
  - subst o. destruct k; try (now destruct L); cbn in A |- *; auto.
    + destruct ops as [|? [|]]; try discriminate. cbn. lia.
    + destruct ops as [|? [|]]; try discriminate. cbn. lia.
    + destruct ops as [|? [|? [|]]]; try discriminate. reflexivity.
  - apply Forall_forall. intros x X. destruct (mapR_map_In _ _ _ _ _ M X) as (y & Y). apply (H x X) with y; auto.
    destruct k; try (now destruct L); try (apply fold_and_Forall in L; rewrite Forall_forall in L; now apply L).
    destruct ops as [|a [|]]; try (now destruct L). destruct X as [<-|[]]. exact L.
Qed.
Lemma lexp_no_term f : lexp plain_term f -> forall l, starts_term (form_sx f :: l) = false.
Proof. destruct f; cbn; try (intros []; fail); auto. Qed.
Lemma goal_back f : lcond plain_term (g_ext problem_ctx) f -> forall g, gd problem_ctx (form_sx f) = Ok g -> writable f.
Proof.
  assert (NO : forall rs, ~ allows (g_ext problem_ctx) rs) by (intros rs (r & _ & [])).
  induction f using form_ind'; cbn [lcond writable]; try (intros []; fail); try (intros; exact Logic.I).
  - intros L g G.
    assert (K : exists o, bfun_sx k = SAtom (TOp o) /\ o = bfun_symbol k) by (destruct k; try (now destruct L); eexists; split; reflexivity).
    destruct K as (o & K & E). cbn [form_sx] in G. rewrite K in G. cbn [gd] in G.
    assert (LL : Forall (lexp plain_term) ops).
    { destruct k; try (now destruct L); auto; destruct ops as [|a [|b [|]]]; try (now destruct L); destruct L; auto. }
    assert (ST : starts_term (map form_sx ops) = false).
    { destruct ops as [|a ops]; auto. cbn [map]. inversion LL; subst. now apply lexp_no_term. }
    rewrite ST, andb_false_r in G. destruct (Parser.comparison o) as [k'|] eqn:C; [|discriminate].
    destruct ops as [|a [|b [|]]]; try discriminate. cbn [map] in G. apply bind_Ok in G as (x & X & G). apply bind_Ok in G as (y & Y & _).
    inversion LL as [|? ? La L1]; inversion L1 as [|? ? Lb _]; subst. split; [destruct k; cbn; auto; try (now destruct L)|].
    cbn. eauto using f_exp_back.
  - intros L g G. rewrite Forall_forall in H. rewrite fold_and_Forall'. apply Forall_forall. intros x X. destruct k; try (now destruct L).
    + apply fold_and_Forall in L. rewrite Forall_forall in L. cbn [form_sx bop_symbol] in G. cbn [gd name_sx] in G. apply bind_Ok in G as (gs & M & _).
      destruct (mapR_map_In _ _ _ _ _ M X) as (y & Y). eauto.
    + destruct L as [A _]. now apply NO in A.
    + destruct ops as [|a [|b [|]]]; try (now destruct L). destruct L as [A _]. now apply NO in A.
  - intros L g G. cbn [form_sx] in G. cbn [gd name_sx] in G. apply bind_Ok in G as (x & X & _). eauto.
  - intros (A & _). now apply NO in A.
Qed.

Theorem printed_writable s p q : parse_problem s = Ok p -> parse_problem (show_problem p) = Ok q -> writable_problem p.
Proof.
  intros P Q. destruct (parsed_problem_loose s p P) as (R & _ & L). destruct (problem_reach_names p R) as (N & D & _).
  rewrite (parse_problem_text _ _ _ _ (problem_shown p N D (loose_shown p L))), problem_rule_sections in Q.
  destruct L as [_ _ _ [_ L4] L5]. do 3 (apply bind_Ok in Q as (? & _ & Q)). apply bind_Ok in Q as (g & G & Q). apply bind_Ok in Q as (m' & M & _).
  rewrite (lcond_untyped _ _ L4) in G. split; [eapply goal_back; eauto|].
  intros m E. destruct (L5 m E) as (O & _ & L). rewrite E in M. cbn [metric_section opt_res] in M. apply bind_Ok in M as (m2 & M & _).
  cbn [metric_spec name_sx] in M. destruct (memb _ _ _); [|discriminate]. apply bind_Ok in M as (f & F & _). eapply metric_back; eauto.
Qed.
