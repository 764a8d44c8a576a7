(** C79: a text that is cut short is not mistaken for a complete one. *)
From Coq Require Import String Ascii List Bool.
From Verif Require Import Py Names Reqs Logic Validation Core Lexer Show Parser.
From Verif Require Import Spec_Layout Spec_Cut Py_facts Lex_facts CopyText_facts Expression_facts Cut_facts CutText_facts Prop_Expression.
Import ListNotations.
Open Scope string_scope.
Open Scope list_scope.

Lemma domain_list l st st' d : parse_domain_sexp l st = (st', Ok d) -> exists x, l = [SList x].
Proof.
  destruct l as [|[t|x] [|y l]]; cbn; try discriminate; eauto.
  destruct x as [|[[]|] [|[|[|[[]|] [|[[]|] [|]]]]]]; discriminate.
Qed.
Lemma domain_many x m st : m <> [] -> parse_domain_sexp (SList x :: m) st = (st, Err LarkSyntaxError).
Proof. destruct m as [|y m]; [congruence|]. intros _. cbn. destruct x as [|[[]|] [|[|[|[[]|] [|[[]|] [|]]]] x]]; reflexivity. Qed.
Lemma one_list x : Forall is_list [SList x].
Proof. constructor; [now exists x|constructor]. Qed.
Lemma one_split x l1 l2 : [SList x] = l1 ++ l2 -> (l1 = [] /\ l2 = [SList x]) \/ (l1 = [SList x] /\ l2 = []).
Proof. destruct l1 as [|y l1]; cbn; intros H; [auto|]. inversion H. destruct l1; [|discriminate]. auto. Qed.

(** Full property: when an accepted text is cut anywhere, the part that is left is a syntax error,
    except when only whitespace and comments are cut off, and then the part is read to the same result. *)
Theorem C79_domain_cut : forall a b st st' d, parse_domain (a +++ b) st = (st', Ok d) ->
  (adds_nothing a b /\ parse_domain a st = (st', Ok d))
  \/ (~ adds_nothing a b /\ snd (parse_domain a st) = Err LarkSyntaxError).
Proof.
  intros a b st st' d H. unfold parse_domain in *. destruct (read_text (a +++ b)) as [l|] eqn:R; [|discriminate].
  pose proof (domain_list _ _ _ _ H) as (x & ->). pose proof (adds_same a b) as S.
  destruct (cut a b _ R (one_list x)) as [N|(l1 & l2 & E & L & A)].
  - right. rewrite N. split; [|reflexivity]. intros C. unfold read_text in *. rewrite (S C) in R. congruence.
  - rewrite L. apply one_split in E as [[-> ->]|[-> ->]].
    + right. split; [|reflexivity]. rewrite <- A. discriminate.
    + left. rewrite <- A. auto.
Qed.
Print Assumptions C79_domain_cut.

Lemma problem_list l o p : parse_problem_sexp o l = Ok p -> exists x, l = [SList x].
Proof.
  destruct l as [|[t|x] [|y l]]; cbn; try discriminate; eauto.
  destruct x as [|[[]|] [|[|[|[[]|] [|[[]|] [|]]]] [|[|[|? [|[[]|] [|]]]]]]]; discriminate.
Qed.
Theorem C79_problem_cut : forall a b p, parse_problem (a +++ b) = Ok p ->
  (adds_nothing a b /\ parse_problem a = Ok p)
  \/ (~ adds_nothing a b /\ parse_problem a = Err LarkSyntaxError).
Proof.
  intros a b p H. unfold parse_problem, parse_problem_from in *. destruct (read_text (a +++ b)) as [l|] eqn:R; [|discriminate].
  pose proof (problem_list _ _ _ H) as (x & ->). pose proof (adds_same a b) as S.
  destruct (cut a b _ R (one_list x)) as [N|(l1 & l2 & E & L & A)].
  - right. rewrite N. split; [|reflexivity]. intros C. unfold read_text in *. rewrite (S C) in R. congruence.
  - rewrite L. apply one_split in E as [[-> ->]|[-> ->]].
    + right. split; [|reflexivity]. rewrite <- A. discriminate.
    + left. rewrite <- A. auto.
Qed.
Print Assumptions C79_problem_cut.

(** In the same way nothing can follow an accepted domain or problem. *)
Theorem C79_domain_continued : forall a b st st' d, parse_domain a st = (st', Ok d) ->
  (adds_nothing a b /\ parse_domain (a +++ b) st = (st', Ok d))
  \/ (~ adds_nothing a b /\ snd (parse_domain (a +++ b) st) = Err LarkSyntaxError).
Proof.
  intros a b st st' d H. unfold parse_domain in *. destruct (read_text a) as [l|] eqn:R; [|discriminate].
  pose proof (domain_list _ _ _ _ H) as (x & ->).
  destruct (continued a b _ R (one_list x)) as [[A ->]|[A [->|(m & M & ->)]]]; auto. right. split; auto. cbn [app]. now rewrite domain_many.
Qed.
Print Assumptions C79_domain_continued.
Lemma problem_many x m o : m <> [] -> parse_problem_sexp o (SList x :: m) = Err LarkSyntaxError.
Proof.
  destruct m as [|y m]; [congruence|]. intros _. cbn.
  destruct x as [|[[]|] [|[|[|[[]|] [|[[]|] [|]]]] [|[|[|? [|[[]|] [|]]]] x]]]; reflexivity.
Qed.
Theorem C79_problem_continued : forall a b p, parse_problem a = Ok p ->
  (adds_nothing a b /\ parse_problem (a +++ b) = Ok p)
  \/ (~ adds_nothing a b /\ parse_problem (a +++ b) = Err LarkSyntaxError).
Proof.
  intros a b p H. unfold parse_problem, parse_problem_from in *. destruct (read_text a) as [l|] eqn:R; [|discriminate].
  pose proof (problem_list _ _ _ H) as (x & ->).
  destruct (continued a b _ R (one_list x)) as [[A ->]|[A [->|(m & M & ->)]]]; auto. right. split; auto. now apply problem_many.
Qed.
Print Assumptions C79_problem_continued.

(** Plans: nothing marks their end, so the property is false of them.  A part of a plan text is
    a syntax error or the first steps of the plan, and never anything else. *)
Theorem C79_plan_refuted : exists a b pl pl', parse_plan (a +++ b) = Ok pl /\ parse_plan a = Ok pl' /\ length pl = 2 /\ length pl' = 1.
Proof. exists "(move a b)", " (move b c)". do 2 eexists. split; [vm_compute; reflexivity|]. split; [vm_compute; reflexivity|]. auto. Qed.
Print Assumptions C79_plan_refuted.
Lemma plan_lists l pl : mapR ground_action l = Ok pl -> Forall is_list l.
Proof.
  intros H. apply mapR_Ok in H. induction H as [|x y l pl E H IH]; constructor; auto. destruct x as [t|x]; [discriminate|]. now exists x.
Qed.
Lemma plan_split l m pl : mapR ground_action (l ++ m) = Ok pl -> exists pl1 pl2, pl = pl1 ++ pl2 /\ mapR ground_action l = Ok pl1 /\ (m = [] <-> pl2 = []).
Proof.
  intros H. apply mapR_Ok in H. apply Forall2_app_inv_l in H as (p1 & p2 & F1 & F2 & ->). exists p1, p2. split; auto.
  split; [now apply mapR_Ok|]. split; intros ->; now inversion F2.
Qed.
Theorem C79_plan_cut_partial : forall a b pl, parse_plan (a +++ b) = Ok pl ->
  parse_plan a = Err LarkSyntaxError
  \/ exists first last, pl = first ++ last /\ parse_plan a = Ok first /\ (last = [] <-> adds_nothing a b).
Proof.
  intros a b pl H. unfold parse_plan in *. destruct (read_text (a +++ b)) as [l|] eqn:R; [|discriminate].
  destruct (cut a b _ R (plan_lists _ _ H)) as [->|(l1 & l2 & -> & -> & A)]; [now left|]. right.
  apply plan_split in H as (p1 & p2 & -> & E & P). exists p1, p2. split; auto. split; auto. rewrite <- P. exact A.
Qed.
Print Assumptions C79_plan_cut_partial.
Theorem C79_plan_continued_partial : forall a b pl pl', parse_plan a = Ok pl -> parse_plan (a +++ b) = Ok pl' ->
  exists more, pl' = pl ++ more /\ (more = [] <-> adds_nothing a b).
Proof.
  intros a b pl pl' H K. destruct (C79_plan_cut_partial a b pl' K) as [E|(f & l & -> & E & A)]; rewrite E in H; [discriminate|].
  injection H as <-. eauto.
Qed.
Print Assumptions C79_plan_continued_partial.

(** What is left of a file when the writing of a printed domain or problem is interrupted is a
    syntax error, unless only blanks are missing. *)
Theorem C79_interrupted : forall s a b,
  (forall d, parse_domain_fresh s = Ok d -> show_domain d = Ok (a +++ b) ->
     white b \/ forall st, snd (parse_domain a st) = Err LarkSyntaxError)
  /\ (forall p, parse_problem s = Ok p -> show_problem p = a +++ b ->
     white b \/ parse_problem a = Err LarkSyntaxError).
Proof.
  intros s a b. split.
  - intros d D H. destruct (C78_parsed_domain _ _ D) as (t & T & O). rewrite H in T. apply Ok_inj in T. subst t.
    destruct (interrupted a b O) as [W|[R|R]]; auto; right; intros st; unfold parse_domain; rewrite R; reflexivity.
  - intros p P H. apply C78_parsed_problem in P. rewrite H in P.
    destruct (interrupted a b P) as [W|[R|R]]; auto; right; unfold parse_problem, parse_problem_from; rewrite R; reflexivity.
Qed.
Print Assumptions C79_interrupted.

(** ** Examples: a domain text cut in a name, between two sections, before its last parenthesis, and
    in the comment after it *)
Definition whole : string := "(define (domain d) (:predicates (p ?x))) ; the end".
Example E79_accepted : exists d, parse_domain_fresh whole = Ok d /\ d_predicates d <> [].
Proof. eexists. split; [vm_compute; reflexivity|discriminate]. Qed.
Example E79_cuts :
  Forall (fun n => parse_domain_fresh (substring 0 n whole) = Err LarkSyntaxError) [0; 4; 17; 19; 38; 39]
  /\ Forall (fun n => parse_domain_fresh (substring 0 n whole) = parse_domain_fresh whole) [40; 41; 45].
Proof. split; repeat constructor. Qed.
Example E79_comment : adds_nothing "(define (domain d)) ; the" " end" /\ adds_nothing "(define (domain d))" " ; the end"
  /\ ~ adds_nothing "(define (domain d)" ") ; the end".
Proof.
  split; [|split].
  - right. split; [exists "(define (domain d)) ", " the"; split; auto; cbn; repeat split; discriminate|]. left. cbn. repeat split; discriminate.
  - left. split.
    + intros C. apply (in_comment_run _ QStart) in C. discriminate.
    + right. exists " ", " the end". split; auto. split; [repeat constructor|cbn; repeat split; discriminate].
  - intros H. apply adds_same in H. discriminate.
Qed.
