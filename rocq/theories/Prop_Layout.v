(** Properties of layout: C36 and C42. *)
From Coq Require Import String Ascii List.
From Verif Require Import Py Names Reqs Logic Validation Core Lexer Show Parser.
From Verif Require Import Spec_Layout Py_facts Lex_facts Layout_facts.
Import ListNotations.
Open Scope string_scope.
Open Scope list_scope.

(** * C36  Layout and comments are irrelevant *)

(** Whitespace and comments put between (or removed from between) two tokens change no result.
    "Between two tokens": reading the two parts separately gives the tokens of the whole. *)
Theorem C36_insert :
  forall s1 gap s2, layout gap -> lex (s1 +++ s2) = lex s1 ++ lex s2 ->
    (forall st, parse_domain (s1 +++ gap +++ s2) st = parse_domain (s1 +++ s2) st)
    /\ parse_problem (s1 +++ gap +++ s2) = parse_problem (s1 +++ s2)
    /\ parse_plan (s1 +++ gap +++ s2) = parse_plan (s1 +++ s2).
Proof.
  intros s1 gap s2 L H. pose proof (insert_gap s1 s2 gap L H) as E.
  unfold parse_domain, parse_problem, parse_problem_from, parse_plan, read_text. now rewrite E.
Qed.
Print Assumptions C36_insert.

(** Any non-empty layout may be replaced by any other, wherever it stands outside a comment *)
Theorem C36_replace :
  forall s1 gap gap' s2, layout gap -> layout gap' -> gap <> "" -> gap' <> "" ->
    ~ in_comment s1 ->
    (forall st, parse_domain (s1 +++ gap +++ s2) st = parse_domain (s1 +++ gap' +++ s2) st)
    /\ parse_problem (s1 +++ gap +++ s2) = parse_problem (s1 +++ gap' +++ s2)
    /\ parse_plan (s1 +++ gap +++ s2) = parse_plan (s1 +++ gap' +++ s2).
Proof.
  intros s1 g h s2 Lg Lh G H N. pose proof (swap_gap s1 s2 g h Lg Lh G H N) as E.
  unfold parse_domain, parse_problem, parse_problem_from, parse_plan, read_text. now rewrite E.
Qed.
Print Assumptions C36_replace.

(** a comment at the end of the text needs no line end *)
Theorem C36_final_comment :
  forall s b, on_one_line b ->
    (forall st, parse_domain (s +++ ";" +++ b) st = parse_domain s st)
    /\ parse_problem (s +++ ";" +++ b) = parse_problem s
    /\ parse_plan (s +++ ";" +++ b) = parse_plan s.
Proof.
  intros s b B. pose proof (final_comment s b B) as E.
  unfold parse_domain, parse_problem, parse_problem_from, parse_plan, read_text. now rewrite E.
Qed.
Print Assumptions C36_final_comment.

Example C36_witness :
  let gap := " " +++ ";(" +++ nl +++ "  " in
  layout gap
  /\ lex ("(define (domain d)" +++ "(:requirements :strips))")
     = lex "(define (domain d)" ++ lex "(:requirements :strips))"
  /\ (exists d, parse_domain_fresh ("(define (domain d)" +++ gap +++ "(:requirements :strips))")
                = Ok d)
  /\ ~ in_comment "(define (domain d)".
Proof.
  split; [|split; [vm_compute; reflexivity|split]].
  - cbn. apply lay_space; [reflexivity|].
    apply (lay_comment "(" "  "); [cbn; repeat split; discriminate|].
    repeat (apply lay_space; [reflexivity|]). constructor.
  - eexists. vm_compute. reflexivity.
  - intros (a & b & E & _). cbn in E.
    repeat (destruct a as [|? a]; cbn in E; [discriminate|injection E as _ E]).
    destruct a; discriminate.
Qed.
(** the condition of C36_insert is needed: a space inside a name makes two names *)
Example C36_needed :
  lex ("a" +++ " " +++ "b") <> lex ("a" +++ "b") /\ lex ("a" +++ "b") <> lex "a" ++ lex "b".
Proof. split; vm_compute; discriminate. Qed.

(** * C42  Formatting only touches layout *)

(** the words (maximal runs of non-whitespace characters), for every string *)
Theorem C42_words :
  forall p s, white p ->
    split_ws (remove_empty_lines (indent p s)) = split_ws s
    /\ split_ws (remove_empty_lines s) = split_ws s
    /\ split_ws (indent p s) = split_ws s.
Proof. exact words_formatting. Qed.
Print Assumptions C42_words.

(** the tokens of the grammar, for every string without a comment *)
Theorem C42_tokens :
  forall p s, white p -> without ";"%char s ->
    lex (remove_empty_lines (indent p s)) = lex s
    /\ lex (remove_empty_lines s) = lex s
    /\ lex (indent p s) = lex s.
Proof. exact tokens_formatting. Qed.
Print Assumptions C42_tokens.

(** str(domain) and str(problem) are their bodies in a frame, up to layout *)
Theorem C42_domain :
  forall d s, show_domain d = Ok s ->
    exists body, domain_body d = Ok body
    /\ let plain := ("(define (domain " +++ d_name d +++ ")") +++ nl +++ body +++ nl +++ ")" in
       split_ws s = split_ws plain /\ (without ";"%char plain -> lex s = lex plain).
Proof.
  intros d s H. destruct (words_domain d s H) as (body & B & E). exists body. split; auto.
  split; auto. now apply tokens_words.
Qed.
Print Assumptions C42_domain.
Theorem C42_problem :
  forall p,
    let plain := ("(define (problem " +++ p_name p +++ ")") +++ nl +++ problem_body p +++ nl +++ ")"
    in split_ws (show_problem p) = split_ws plain
       /\ (without ";"%char plain -> lex (show_problem p) = lex plain).
Proof. intros p plain. split; [apply words_problem|apply tokens_words, words_problem]. Qed.
Print Assumptions C42_problem.

Example C42_witness :
  white "    " /\ without ";"%char ("(a" +++ nl +++ nl +++ "b)")
  /\ remove_empty_lines (indent "    " ("(a" +++ nl +++ nl +++ "b)")) = "    (a" +++ nl +++ "    b)".
Proof. repeat split; try discriminate. Qed.
