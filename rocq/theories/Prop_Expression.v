(** C78: what is printed is one expression in balanced parentheses. *)
From Coq Require Import String Ascii List Bool ZArith.
From Verif Require Import Py Names Req Reqs Logic Validation Core Show Lexer Parser Main Built.
From Verif Require Import Spec Spec_Problem Spec_Numbers Spec_Copy Spec_Expression Py_facts Names_facts Lex_facts Print_facts Copy_facts CopyText_facts Core_facts Types_facts DomainRead_facts Main_facts Number_facts RaiseParse_facts
  Prop_Main Prop_Format Expression_facts ExpressionText_facts Spec_Expression.
Import ListNotations.
Open Scope string_scope.
Open Scope list_scope.

(** Full property: str() of every condition, effect, action, domain and problem is one expression.
    It is true of everything that is parsed. *)
Theorem C78_parsed_domain : forall s d, parse_domain_fresh s = Ok d ->
  exists t, show_domain d = Ok t /\ one_expression t.
Proof.
  intros s d H. pose proof (parsed_built _ _ H) as B. destruct (show_domain_total d B) as (t & T).
  exists t. split; auto. eapply one_domain; eauto using parsed_domain_made, parsed_domain_plain.
Qed.
Print Assumptions C78_parsed_domain.

Theorem C78_parsed_problem : forall s p, parse_problem s = Ok p -> one_expression (show_problem p).
Proof. intros s p H. apply one_problem; eauto using parsed_problem_made, parsed_problem_plain. Qed.
Print Assumptions C78_parsed_problem.

(** every part of a parsed domain is one expression, too *)
Theorem C78_parsed_parts : forall s d, parse_domain_fresh s = Ok d ->
  (forall a, In a (d_actions d) -> one_expression (show_action a)) /\
  (forall a f, In a (d_actions d) -> a_pre a = Some f \/ a_eff a = Some f -> one_expression (show_form f)).
Proof.
  intros s d H. pose proof (parsed_domain_made _ _ H) as M. pose proof (parsed_domain_plain _ _ H) as (P & _).
  apply made_domain_actions in M. rewrite Forall_forall in *. split; [intros a I; apply one_action; auto|].
  intros a f I E. specialize (M a I). specialize (P a I). pose proof (parsed_actions _ _ H a f I E) as V.
  destruct M as (n & ps & p & e & M & _ & Mp & Me), P as [Pp Pe]. unfold mk_action in M. apply bind_Ok in M as (n' & _ & M). injection M as <-.
  cbn [a_pre a_eff] in *. apply one_form; auto; destruct E as [E|E]; auto.
Qed.
Print Assumptions C78_parsed_parts.

(** a plan is printed as one expression per line *)
Theorem C78_plan : forall s pl, parse_plan s = Ok pl ->
  Forall one_expression (map show_step pl) /\ show_plan pl = join nl (map show_step pl).
Proof.
  intros s pl H. split; [|reflexivity]. apply Forall_map. unfold parse_plan in H. destruct (read_text s) as [l|] eqn:R; [|discriminate].
  assert (K : forall x, In x l -> forall w, atom_in (TWord w) x -> name_regex w = true) by (eauto using read_text_word).
  clear R. apply mapR_Ok in H. induction H as [|x [n cs] l pl E H IH]; constructor.
  - destruct (parsed_plan_step x n cs (K x (or_introl eq_refl)) E) as (A & B & _). unfold show_step. cbn [fst snd].
    replace (n +++ " " +++ join " " (map fst cs) +++ ")") with ((n +++ " " +++ join " " (map fst cs)) +++ ")") by (rewrite !append_assoc; reflexivity).
    apply one_wrap. apply bal_app; [now apply bal_name|]. apply bal_app; [intros k; reflexivity|].
    apply bal_join; [intros k; reflexivity|]. apply Forall_map. eapply Forall_impl; [|exact B]. intros c. apply bal_legal.
  - apply IH. intros; eapply K; [right|]; eauto.
Qed.
Print Assumptions C78_plan.

(** Constructed objects: what the constructors do not check is the type of a function of a domain,
    which they do not take for a type, and a number may be kept as a text. *)
Theorem C78_formulas : forall f, made f -> plain_numbers f -> (forall v, f <> FNumVal v) -> one_expression (show_form f).
Proof. exact one_form. Qed.
Print Assumptions C78_formulas.
Theorem C78_actions : forall a, made_action a -> plain_action a -> one_expression (show_action a).
Proof. exact one_action. Qed.
Print Assumptions C78_actions.
Theorem C78_domain_partial : forall d t, made_domain d -> plain_domain d -> show_domain d = Ok t -> one_expression t.
Proof. intros d t. apply one_domain. Qed.
Print Assumptions C78_domain_partial.
Theorem C78_problem : forall p, made_problem p -> plain_problem p -> one_expression (show_problem p).
Proof. exact one_problem. Qed.
Print Assumptions C78_problem.

(** Domain(functions={f: ")"}): the type of a function is not checked, so the text of a constructed
    domain need not be one expression. *)
Theorem C78_refuted : exists d t,
  mk_domain "d" [FLUENTS] None [] [] [] [(("f", []), Some ")")] [] = Ok d /\ made_domain d /\
  show_domain d = Ok t /\ ~ one_expression t.
Proof.
  destruct (mk_domain "d" [FLUENTS] None [] [] [] [(("f", []), Some ")")] []) as [d|] eqn:E; [|vm_compute in E; discriminate].
  destruct (show_domain d) as [t|] eqn:T; [|vm_compute in E; injection E as <-; vm_compute in T; discriminate].
  exists d, t. split; auto. split.
  - do 8 eexists. split; [exact E|]. repeat split; repeat constructor. cbn. apply (Y_numfun "f" []); [constructor|reflexivity].
  - split; auto. vm_compute in E. injection E as <-. vm_compute in T. injection T as <-. vm_compute. discriminate.
Qed.
Print Assumptions C78_refuted.

(** What the command line tool writes for a domain and a problem is one expression each. *)
Theorem C78_command : forall df pt out, cli false df (Some pt) None = (out, Ok tt) ->
  length out = 2 /\ Forall one_expression out.
Proof.
  intros df pt out H. destruct (C55_output df) as (_ & C & _). apply C in H as (d & ds & p & D & S & P & ->). split; [reflexivity|].
  destruct (C78_parsed_domain _ _ D) as (t & T & O). rewrite S in T. injection T as <-. apply C78_parsed_problem in P.
  repeat constructor; unfold one_expression in *; rewrite read_app; [rewrite O|rewrite P]; reflexivity.
Qed.
Print Assumptions C78_command.

(** ** Examples: the files of C49, and wrong texts that are told apart *)
Example E78_domain : exists d t, parse_domain_fresh block_text = Ok d /\ show_domain d = Ok t /\ one_expression t /\ 1 < List.length (d_actions d) + List.length (d_predicates d).
Proof.
  destruct (parse_domain_fresh block_text) as [d|] eqn:E; [|vm_compute in E; discriminate].
  destruct (C78_parsed_domain _ _ E) as (t & T & O). exists d, t. repeat (split; auto).
  vm_compute in E. injection E as <-. vm_compute. repeat constructor.
Qed.
Example E78_problem : exists p, parse_problem p01_text = Ok p /\ one_expression (show_problem p).
Proof.
  destruct (parse_problem p01_text) as [p|] eqn:E; [|vm_compute in E; discriminate]. exists p. split; auto. now apply C78_parsed_problem in E.
Qed.
Example E78_wrong : ~ one_expression "(a (b)" /\ ~ one_expression "(a) (b)" /\ ~ one_expression "(a))" /\ ~ one_expression "a (b)"
  /\ ~ one_expression "(a ; b" /\ ~ one_expression "" /\ one_expression " (a (b) ) ".
Proof. repeat split; vm_compute; try discriminate; reflexivity. Qed.
Example E78_formula : let f := FBinFun BEqual [FNumFun "f" [TConst "a" None]; FNumVal (NInt 2)] in
  made f /\ plain_numbers f /\ one_expression (show_form f).
Proof.
  intros f. assert (M : made f).
  { apply (Y_binfun BEqual [FNumFun "f" [TConst "a" None]; FNumVal (NInt 2)]). constructor; [|constructor; [apply Y_numval|constructor]].
    apply (Y_numfun "f" [TConst "a" None]); [|reflexivity]. constructor; [|constructor]. cbn. now exists "a", None. }
  split; auto. split; [cbn; auto|]. apply C78_formulas; [exact M|cbn; auto|discriminate].
Qed.
