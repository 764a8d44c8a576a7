(** C72: the generated parser and the transformer methods together compute what Parser.v says.

    [parses VTok VNone VSplice unsplice domain_callback domain_table s st st' r ws]: the table-driven
    parser of Lark.v, calling the methods of the transformer of Callbacks.v at each reduction, started
    on the text [s] with the transformer's attributes [st], ends with the attributes [st'] and the
    result [r], having read the words [ws]. *)
From Coq Require Import String Ascii List Bool PArith.
From Verif Require Import Py Names Reqs Logic Validation Core Lexer Parser Spec_Grammar Words_facts GrammarAll_facts Lark LarkTables Spec_Lark LarkCheck_facts
     Prop_Lark Prop_Derived Prop_Raise Callbacks CallTree_facts CallDomain_facts CallDomain2_facts CallProblem_facts CallSyntax_facts AcceptText_facts.
Import ListNotations.
Open Scope string_scope.
Open Scope list_scope.

Definition reads_domain := parses VTok VNone VSplice unsplice domain_callback domain_table.
Definition reads_problem := parses VTok VNone VSplice unsplice problem_callback problem_table.
Definition reads_plan := parses VTok VNone VSplice unsplice plan_callback plan_table.

(** * What is returned is what Parser.v returns *)
Theorem C72_domain_returned : forall s st st' v ws,
  reads_domain s st st' (Ok v) ws -> spelled ws s ->
  exists d, v = VDomain d /\ parse_domain s st = (st', Ok d).
Proof.
  intros s st st' v ws H Sp. destruct (C71_an_accepted_text_has_a_tree _ _ _ _ _ _ _ _ _ _ _ _ P_domain (fun _ => eq_refl) H) as (_ & p & w & T & E & W).
  apply domain_worth in T as (x & [Sx G] & V). unfold worth in W. rewrite V in W. rewrite E in Sx. unfold liftM in W.
  unfold parse_domain. rewrite (text_trees ws [x] s Sp) by (split; [cbn; now rewrite app_nil_r|constructor; auto]).
  destruct (parse_domain_sexp [x] st) as [st1 [d|e]]; cbn in W; [|discriminate]. injection W as <- <-. eauto.
Qed.
Print Assumptions C72_domain_returned.
Theorem C72_problem_returned : forall s objs objs' v ws,
  reads_problem s objs objs' (Ok v) ws -> spelled ws s ->
  exists p, v = VProblem p /\ parse_problem_from objs s = Ok p.
Proof.
  intros s st st' v ws H Sp. destruct (C71_an_accepted_text_has_a_tree _ _ _ _ _ _ _ _ _ _ _ _ P_problem (fun _ => eq_refl) H) as (_ & p & w & T & E & W).
  apply problem_worth in T as (x & [Sx G] & V). unfold worth in W. rewrite V in W. rewrite E in Sx. unfold liftP in W.
  unfold parse_problem_from. rewrite (text_trees ws [x] s Sp) by (split; [cbn; now rewrite app_nil_r|constructor; auto]).
  destruct (parse_problem_sexp st [x]) as [d|e]; cbn in W; [|discriminate]. injection W as <- <-. eauto.
Qed.
Print Assumptions C72_problem_returned.
Theorem C72_plan_returned : forall s u u' v ws,
  reads_plan s u u' (Ok v) ws -> spelled ws s ->
  exists p, v = VPlan p /\ parse_plan s = Ok p.
Proof.
  intros s st st' v ws H Sp. destruct (C71_an_accepted_text_has_a_tree _ _ _ _ _ _ _ _ _ _ _ _ P_plan (fun _ => eq_refl) H) as (_ & p & w & T & E & W).
  apply plan_worth in T as (l & [Sx G] & V). unfold worth in W. rewrite V in W. rewrite E in Sx. unfold liftP in W.
  unfold parse_plan. rewrite (text_trees ws l s Sp) by (split; auto).
  destruct (mapR ground_action l) as [d|e]; cbn in W; [|discriminate]. injection W as <- <-. eauto.
Qed.
Print Assumptions C72_plan_returned.

(** * If words touch that Parser.v does not separate (Lark reads "(domainlights)" as "(domain lights)"),
    what is returned is what Parser.v returns for the same words with blanks between them *)
Fixpoint spaced (ws : list string) : string :=
  match ws with [] => "" | w :: r => w +++ String " " (spaced r) end.
Lemma blank_not_glued w : ~ glued w " ".
Proof.
  intros [(a & r & _ & _ & H)|[(a & r & _ & _ & [H|H])|(_ & H)]]; try discriminate.
  - apply name_char_spec in H. discriminate H.
  - apply digit_spec in H. discriminate H.
Qed.
Lemma spaced_spelled ws : Forall Spec_Grammar.word ws -> spelled ws (spaced ws).
Proof.
  induction 1 as [|w ws H _ IH]; [constructor|]. cbn [spaced]. apply Sp_word; [exact H|intros c r E; injection E as <- _; apply blank_not_glued|].
  apply Sp_blank; [|exact IH]. vm_compute. tauto.
Qed.
Lemma tree_words e cs w nx : tree word_at e cs w nx -> Forall Spec_Grammar.word (map snd w).
Proof.
  intros T. assert (F : Forall (fun x => lexeme (fst x) (snd x)) w) by (eapply AcceptBase_facts.X_lexemes; exists cs; exact T).
  rewrite Forall_map. eapply Forall_impl; [|exact F]. intros x L. now exists (fst x).
Qed.
Theorem C72_touching_words : forall s ws,
  (forall st st' v, reads_domain s st st' (Ok v) ws -> strung ws s /\ exists d, v = VDomain d /\ parse_domain (spaced ws) st = (st', Ok d)) /\
  (forall objs objs' v, reads_problem s objs objs' (Ok v) ws -> strung ws s /\ exists p, v = VProblem p /\ parse_problem_from objs (spaced ws) = Ok p) /\
  (forall u u' v, reads_plan s u u' (Ok v) ws -> strung ws s /\ exists p, v = VPlan p /\ parse_plan (spaced ws) = Ok p).
Proof.
  intros s ws. split; [|split]; intros st st' v H.
  - destruct (C71_an_accepted_text_has_a_tree _ _ _ _ _ _ _ _ _ _ _ _ P_domain (fun _ => eq_refl) H) as (Sg & p & w & T & E & W). split; [exact Sg|].
    pose proof (spaced_spelled _ (tree_words _ _ _ _ T)) as Sp. rewrite E in Sp.
    apply domain_worth in T as (x & [Sx G] & V). unfold worth in W. rewrite V in W. rewrite E in Sx. unfold liftM in W.
    unfold parse_domain. rewrite (text_trees ws [x] _ Sp) by (split; [cbn; now rewrite app_nil_r|constructor; auto]).
    destruct (parse_domain_sexp [x] st) as [st1 [d|e]]; cbn in W; [|discriminate]. injection W as <- <-. eauto.
  - destruct (C71_an_accepted_text_has_a_tree _ _ _ _ _ _ _ _ _ _ _ _ P_problem (fun _ => eq_refl) H) as (Sg & p & w & T & E & W). split; [exact Sg|].
    pose proof (spaced_spelled _ (tree_words _ _ _ _ T)) as Sp. rewrite E in Sp.
    apply problem_worth in T as (x & [Sx G] & V). unfold worth in W. rewrite V in W. rewrite E in Sx. unfold liftP in W.
    unfold parse_problem_from. rewrite (text_trees ws [x] _ Sp) by (split; [cbn; now rewrite app_nil_r|constructor; auto]).
    destruct (parse_problem_sexp st [x]) as [d|e]; cbn in W; [|discriminate]. injection W as <- <-. eauto.
  - destruct (C71_an_accepted_text_has_a_tree _ _ _ _ _ _ _ _ _ _ _ _ P_plan (fun _ => eq_refl) H) as (Sg & p & w & T & E & W). split; [exact Sg|].
    pose proof (spaced_spelled _ (tree_words _ _ _ _ T)) as Sp. rewrite E in Sp.
    apply plan_worth in T as (l & [Sx G] & V). unfold worth in W. rewrite V in W. rewrite E in Sx. unfold liftP in W.
    unfold parse_plan. rewrite (text_trees ws l _ Sp) by (split; auto).
    destruct (mapR ground_action l) as [d|e]; cbn in W; [|discriminate]. injection W as <- <-. eauto.
Qed.
Print Assumptions C72_touching_words.

(** * The text of a tree gets the result of Parser.v, be it a value or an exception *)
Theorem C72_domain_result : forall s st p w, tree word_at (N "domain") [p] w the_end -> spelled (map snd w) s ->
  exists ws rest, reads_domain s st (fst (parse_domain s st)) (let* d := snd (parse_domain s st) in Ok (VDomain d)) ws
    /\ map snd w = ws ++ rest /\ (forall v, (let* d := snd (parse_domain s st) in Ok (VDomain d)) = Ok v -> rest = []).
Proof.
  intros s st p w T Sp. destruct (domain_worth _ _ _ T) as (x & [Sx G] & V).
  assert (E : parse_domain s = parse_domain_sexp [x]) by (unfold parse_domain; rewrite (text_trees _ [x] s Sp); [reflexivity|split; [cbn; now rewrite app_nil_r|constructor; auto]]).
  rewrite E. apply (C71_the_text_of_a_tree_is_read VTok VNone VSplice unsplice domain_callback "domain" domain_table s st _ _ p w P_domain (fun _ => eq_refl) T Sp).
  - unfold worth. now rewrite V.
  - pose proof (worth_ns domain_callback domain_ns p st) as N. rewrite V in N. exact N.
Qed.
Print Assumptions C72_domain_result.
Theorem C72_problem_result : forall s objs p w, tree word_at (N "problem") [p] w the_end -> spelled (map snd w) s ->
  exists objs' ws rest, reads_problem s objs objs' (let* p := parse_problem_from objs s in Ok (VProblem p)) ws
    /\ map snd w = ws ++ rest /\ (forall v, (let* p := parse_problem_from objs s in Ok (VProblem p)) = Ok v -> rest = []).
Proof.
  intros s st p w T Sp. destruct (problem_worth _ _ _ T) as (x & [Sx G] & V).
  assert (E : parse_problem_from st s = parse_problem_sexp st [x]) by (unfold parse_problem_from; rewrite (text_trees _ [x] s Sp); [reflexivity|split; [cbn; now rewrite app_nil_r|constructor; auto]]).
  rewrite E. eexists. apply (C71_the_text_of_a_tree_is_read VTok VNone VSplice unsplice problem_callback "problem" problem_table s st _ _ p w P_problem (fun _ => eq_refl) T Sp).
  - unfold worth. now rewrite V.
  - pose proof (worth_ns problem_callback problem_ns p st) as N. rewrite V in N. exact N.
Qed.
Print Assumptions C72_problem_result.
Theorem C72_plan_result : forall s u p w, tree word_at (N "plan") [p] w the_end -> spelled (map snd w) s ->
  exists u' ws rest, reads_plan s u u' (let* p := parse_plan s in Ok (VPlan p)) ws
    /\ map snd w = ws ++ rest /\ (forall v, (let* p := parse_plan s in Ok (VPlan p)) = Ok v -> rest = []).
Proof.
  intros s st p w T Sp. destruct (plan_worth _ _ _ T) as (l & [Sx G] & V).
  assert (E : parse_plan s = mapR ground_action l) by (unfold parse_plan; rewrite (text_trees _ l s Sp); [reflexivity|split; auto]).
  rewrite E. eexists. apply (C71_the_text_of_a_tree_is_read VTok VNone VSplice unsplice plan_callback "plan" plan_table s st _ _ p w P_plan (fun _ => eq_refl) T Sp).
  - unfold worth. now rewrite V.
  - pose proof (worth_ns plan_callback plan_ns p st) as N. rewrite V in N. exact N.
Qed.
Print Assumptions C72_plan_result.

(** * A text is accepted by the one if and only if it is accepted by the other, with the same value
    and the same attributes afterwards *)
Theorem C72_domain_accepted : forall s st st' d,
  parse_domain s st = (st', Ok d) <-> exists ws, reads_domain s st st' (Ok (VDomain d)) ws /\ spelled ws s.
Proof.
  intros s st st' d. split.
  - intros H. destruct (domain_has_tree _ _ _ _ H) as (p & w & T & Sp). destruct (C72_domain_result s st p w T Sp) as (ws & rest & R & E & O).
    rewrite H in R, O. cbn in R, O. rewrite (O _ eq_refl), app_nil_r in E. subst ws. eauto.
  - intros (ws & R & Sp). destruct (C72_domain_returned _ _ _ _ _ R Sp) as (d' & E & H). now injection E as ->.
Qed.
Print Assumptions C72_domain_accepted.
Theorem C72_problem_accepted : forall s objs p,
  parse_problem_from objs s = Ok p <-> exists objs' ws, reads_problem s objs objs' (Ok (VProblem p)) ws /\ spelled ws s.
Proof.
  intros s objs d. split.
  - intros H. destruct (problem_has_tree _ _ _ H) as (p & w & T & Sp). destruct (C72_problem_result s objs p w T Sp) as (o & ws & rest & R & E & O).
    rewrite H in R, O. cbn in R, O. rewrite (O _ eq_refl), app_nil_r in E. subst ws. eauto.
  - intros (o & ws & R & Sp). destruct (C72_problem_returned _ _ _ _ _ R Sp) as (d' & E & H). now injection E as ->.
Qed.
Print Assumptions C72_problem_accepted.
Theorem C72_plan_accepted : forall s u p,
  parse_plan s = Ok p <-> exists u' ws, reads_plan s u u' (Ok (VPlan p)) ws /\ spelled ws s.
Proof.
  intros s u d. split.
  - intros H. destruct (plan_has_tree _ _ H) as (p & w & T & Sp). destruct (C72_plan_result s u p w T Sp) as (o & ws & rest & R & E & O).
    rewrite H in R, O. cbn in R, O. rewrite (O _ eq_refl), app_nil_r in E. subst ws. eauto.
  - intros (o & ws & R & Sp). destruct (C72_plan_returned _ _ _ _ _ R Sp) as (d' & E & H). now injection E as ->.
Qed.
Print Assumptions C72_plan_accepted.
(** so a text that Parser.v rejects is rejected, unless words touch that Parser.v does not separate *)
Theorem C72_rejected : forall s,
  (forall st st' e, parse_domain s st = (st', Err e) -> exists st1 r ws, reads_domain s st st1 r ws /\ ((exists e', r = Err e') \/ ~ spelled ws s)) /\
  (forall objs e, parse_problem_from objs s = Err e -> exists objs' r ws, reads_problem s objs objs' r ws /\ ((exists e', r = Err e') \/ ~ spelled ws s)) /\
  (forall u e, parse_plan s = Err e -> exists u' r ws, reads_plan s u u' r ws /\ ((exists e', r = Err e') \/ ~ spelled ws s)).
Proof.
  intros s. split; [|split].
  - intros st st' e H. destruct (C71_every_text_gets_one_answer VTok VNone VSplice unsplice domain_callback "domain" domain_table s st P_domain) as (st1 & r & ws & R & _).
    exists st1, r, ws. split; [exact R|]. destruct r as [v|e']; [right|eauto]. intros Sp. destruct (C72_domain_returned _ _ _ _ _ R Sp) as (d & _ & K). congruence.
  - intros st e H. destruct (C71_every_text_gets_one_answer VTok VNone VSplice unsplice problem_callback "problem" problem_table s st P_problem) as (st1 & r & ws & R & _).
    exists st1, r, ws. split; [exact R|]. destruct r as [v|e']; [right|eauto]. intros Sp. destruct (C72_problem_returned _ _ _ _ _ R Sp) as (d & _ & K). congruence.
  - intros st e H. destruct (C71_every_text_gets_one_answer VTok VNone VSplice unsplice plan_callback "plan" plan_table s st P_plan) as (st1 & r & ws & R & _).
    exists st1, r, ws. split; [exact R|]. destruct r as [v|e']; [right|eauto]. intros Sp. destruct (C72_plan_returned _ _ _ _ _ R Sp) as (d & _ & K). congruence.
Qed.
Print Assumptions C72_rejected.

(** * Every exception is one of Parser.v *)

(** An exception that is not a syntax error is the one that Parser.v raises for a text that begins with
    the words read so far (or all of them but the last), and the attributes are then the same. *)
Definition begins (us ws : list string) : Prop := exists l, ws = us ++ l /\ length l <= 1.
Theorem C72_domain_exception : forall s st st' e ws, reads_domain s st st' (Err e) ws -> e <> LarkSyntaxError ->
  (exists a b, s = a +++ b /\ strung ws a) /\
  exists us more, begins us ws /\ Forall Spec_Grammar.word (us ++ more) /\ parse_domain (spaced (us ++ more)) st = (st', Err e).
Proof.
  intros s st st' e ws H NE. destruct (C71_an_exception_is_that_of_a_tree _ _ _ _ _ _ _ _ _ _ _ _ P_domain (fun _ => eq_refl) H NE) as (B & p & w & more & l & T & E & LL & W).
  split; [exact B|]. exists (map snd w), (map snd more). split; [exists l; auto|]. pose proof (tree_words _ _ _ _ T) as FW. pose proof (spaced_spelled _ FW) as Sp. rewrite map_app in FW, Sp. split; [exact FW|].
  apply domain_worth in T as (x & [Sx G] & V). unfold worth in W. rewrite V in W. rewrite map_app in Sx. unfold liftM in W.
  unfold parse_domain. rewrite (text_trees _ [x] _ Sp) by (split; [cbn; now rewrite app_nil_r|constructor; auto]).
  destruct (parse_domain_sexp [x] st) as [st1 [d|e1]]; cbn in W; [discriminate|]. injection W as <- <-. reflexivity.
Qed.
Print Assumptions C72_domain_exception.
Theorem C72_problem_exception : forall s objs objs' e ws, reads_problem s objs objs' (Err e) ws -> e <> LarkSyntaxError ->
  (exists a b, s = a +++ b /\ strung ws a) /\
  exists us more, begins us ws /\ Forall Spec_Grammar.word (us ++ more) /\ parse_problem_from objs (spaced (us ++ more)) = Err e.
Proof.
  intros s st st' e ws H NE. destruct (C71_an_exception_is_that_of_a_tree _ _ _ _ _ _ _ _ _ _ _ _ P_problem (fun _ => eq_refl) H NE) as (B & p & w & more & l & T & E & LL & W).
  split; [exact B|]. exists (map snd w), (map snd more). split; [exists l; auto|]. pose proof (tree_words _ _ _ _ T) as FW. pose proof (spaced_spelled _ FW) as Sp. rewrite map_app in FW, Sp. split; [exact FW|].
  apply problem_worth in T as (x & [Sx G] & V). unfold worth in W. rewrite V in W. rewrite map_app in Sx. unfold liftP in W.
  unfold parse_problem_from. rewrite (text_trees _ [x] _ Sp) by (split; [cbn; now rewrite app_nil_r|constructor; auto]).
  destruct (parse_problem_sexp st [x]) as [d|e1]; cbn in W; [discriminate|]. injection W as <- <-. reflexivity.
Qed.
Print Assumptions C72_problem_exception.
Theorem C72_plan_exception : forall s u u' e ws, reads_plan s u u' (Err e) ws -> e <> LarkSyntaxError ->
  (exists a b, s = a +++ b /\ strung ws a) /\
  exists us more, begins us ws /\ Forall Spec_Grammar.word (us ++ more) /\ parse_plan (spaced (us ++ more)) = Err e.
Proof.
  intros s st st' e ws H NE. destruct (C71_an_exception_is_that_of_a_tree _ _ _ _ _ _ _ _ _ _ _ _ P_plan (fun _ => eq_refl) H NE) as (B & p & w & more & l & T & E & LL & W).
  split; [exact B|]. exists (map snd w), (map snd more). split; [exists l; auto|]. pose proof (tree_words _ _ _ _ T) as FW. pose proof (spaced_spelled _ FW) as Sp. rewrite map_app in FW, Sp. split; [exact FW|].
  apply plan_worth in T as (xs & [Sx G] & V). unfold worth in W. rewrite V in W. rewrite map_app in Sx. unfold liftP in W.
  unfold parse_plan. rewrite (text_trees _ xs _ Sp) by (split; auto).
  destruct (mapR ground_action xs) as [d|e1]; cbn in W; [discriminate|]. injection W as <- <-. reflexivity.
Qed.
Print Assumptions C72_plan_exception.

(** * Examples *)
Definition read_with {St} (callback : string -> list value -> St -> St * res value) (tbl : table) (s : string) (st : St) : option (res value * list string) :=
  match run tbl lex_text VTok (build VNone VSplice unsplice callback) 1000 (begin (s, []) st) with
  | Some (_, r, (_, log)) => Some (r, rev log)
  | None => None
  end.
Lemma read_with_parses {St} (callback : string -> list value -> St -> St * res value) tbl s st r ws : read_with callback tbl s st = Some (r, ws) ->
  exists st', parses VTok VNone VSplice unsplice callback tbl s st st' r ws.
Proof.
  unfold read_with, parses, returns. intros H.
  destruct (run tbl lex_text VTok (build VNone VSplice unsplice callback) 1000 (begin (s, []) st)) as [[[st' r'] [s' log]]|] eqn:E; [|discriminate].
  inversion H; subst. exists st', s', 1000. now rewrite rev_involutive.
Qed.
(** So the generated parsers raise the exceptions that Parser.v raises (C54), and no others. *)
Lemma raised {St} (callback : string -> list value -> St -> St * res value) tbl st e s :
  match read_with callback tbl s st with Some (r, _) => r = Err e | None => False end ->
  exists s st' ws, parses VTok VNone VSplice unsplice callback tbl s st st' (Err e) ws.
Proof.
  intros H. destruct (read_with callback tbl s st) as [[r ws]|] eqn:E; [|destruct H]. subst. apply read_with_parses in E as [st' E]. eauto.
Qed.
Theorem C72_exceptions : forall e,
  ((exists s st' ws, reads_domain s init_dstate st' (Err e) ws) <-> exists s, parse_domain_fresh s = Err e) /\
  ((exists s objs' ws, reads_problem s [] objs' (Err e) ws) <-> exists s, parse_problem s = Err e) /\
  ((exists s u' ws, reads_plan s tt u' (Err e) ws) <-> exists s, parse_plan s = Err e).
Proof.
  assert (Q : forall e, e = LarkSyntaxError \/ e <> LarkSyntaxError) by (intros []; (now left) || (right; discriminate)).
  intros e. split; [|split]; split.
  - intros (s & st' & ws & H). destruct (Q e) as [->|NE]; [apply C54_domain; now left|].
    destruct (C72_domain_exception _ _ _ _ _ H NE) as (_ & us & more & _ & _ & K). exists (spaced (us ++ more)). unfold parse_domain_fresh. now rewrite K.
  - intros H. apply C54_domain in H. cbn [In] in H. unfold reads_domain. decompose [or] H; subst; try contradiction; clear H.
    + apply (raised _ _ _ _ "(define (domain d) (:predicates))"). vm_compute. reflexivity.
    + apply (raised _ _ _ _ "(define (domain d) (:predicates (p ?x))
        (:action a :parameters () :precondition (p c) :effect (and)))"). vm_compute. reflexivity.
    + apply (raised _ _ _ _ "(define (domain d) (:constants c c))"). vm_compute. reflexivity.
    + apply (raised _ _ _ _ "(define (domain d) (:predicates (define)))"). vm_compute. reflexivity.
    + apply (raised _ _ _ _ "(define (domain d) (:types t - u))"). vm_compute. reflexivity.
    + apply (raised _ _ _ _ "(define (domain d) (:predicates (p))
        (:action a :parameters () :precondition (forall (?x) (= ?x ?x)) :effect (and)))"). vm_compute. reflexivity.
    + apply (raised _ _ _ _ "(define (domain d) (:predicates (p))
        (:action a :parameters () :precondition (or (p) (p)) :effect (and)))"). vm_compute. reflexivity.
    + apply (raised _ _ _ _ "(define (domain d) (:predicates (p))
        (:action a :parameters () :precondition (exists (?x) (p)) :effect (and)))"). vm_compute. reflexivity.
    + apply (raised _ _ _ _ "(define (domain d) (:predicates (p))
        (:action a :parameters () :precondition (forall (?x) (p)) :effect (and)))"). vm_compute. reflexivity.
    + apply (raised _ _ _ _ "(define (domain d) (:predicates (p))
        (:action a :parameters () :precondition (p) :effect (oneof (p) (not (p)))))"). vm_compute. reflexivity.
    + apply (raised _ _ _ _ "(define (domain d) (:requirements :typing) (:types t u) (:predicates (p ?x ?y))
        (:action a :parameters (?x - t) :precondition (forall (?x - u) (> 1.2.3 1)) :effect (and)))"). vm_compute. reflexivity.
    + apply (raised _ _ _ _ "(define (domain d) (:predicates (p)) (:action a :parameters () :precondition (p)))"). vm_compute. reflexivity.
    + apply (raised _ _ _ _ "(define (domain d) (:predicates (p ?x - t)) (:derived (p ?x - u) (p ?x)))"). vm_compute. reflexivity.
    + apply (raised _ _ _ _ C28_text). vm_compute. reflexivity.
  - intros (s & st' & ws & H). destruct (Q e) as [->|NE]; [apply C54_problem; now left|].
    destruct (C72_problem_exception _ _ _ _ _ H NE) as (_ & us & more & _ & _ & K). exists (spaced (us ++ more)). exact K.
  - intros H. apply C54_problem in H. cbn [In] in H. unfold reads_problem. decompose [or] H; subst; try contradiction; clear H.
    + apply (raised _ _ _ _ "(define (problem p))"). vm_compute. reflexivity.
    + apply (raised _ _ _ _ "(define (problem p) (:domain d) (:objects a a) (:init) (:goal (and)))"). vm_compute. reflexivity.
    + apply (raised _ _ _ _ "(define (problem p) (:domain d) (:init (define)) (:goal (and)))"). vm_compute. reflexivity.
    + apply (raised _ _ _ _ "(define (problem p) (:domain d) (:init (= f 1.2.3)) (:goal (and)))"). vm_compute. reflexivity.
    + apply (raised _ _ _ _ "(define (problem p) (:domain d) (:init) (:goal (forall (?x) (= ?x ?x))))"). vm_compute. reflexivity.
    + apply (raised _ _ _ _ "(define (problem p) (:domain d) (:init) (:goal (or (q))))"). vm_compute. reflexivity.
    + apply (raised _ _ _ _ "(define (problem p) (:domain d) (:init) (:goal (exists (?x) (q))))"). vm_compute. reflexivity.
    + apply (raised _ _ _ _ "(define (problem p) (:domain d) (:init) (:goal (forall (?x) (q))))"). vm_compute. reflexivity.
  - intros (s & st' & ws & H). destruct (Q e) as [->|NE]; [apply C54_plan; now left|].
    destruct (C72_plan_exception _ _ _ _ _ H NE) as (_ & us & more & _ & _ & K). exists (spaced (us ++ more)). exact K.
  - intros H. apply C54_plan in H. cbn [In] in H. unfold reads_plan. decompose [or] H; subst; try contradiction; clear H.
    + apply (raised _ _ _ _ "(move a"). vm_compute. reflexivity.
    + apply (raised _ _ _ _ "(move and)"). vm_compute. reflexivity.
Qed.
Print Assumptions C72_exceptions.

(** the texts are read, their words are spelled by them, and the results are those of Parser.v *)
Definition lights : string :=
  "(define (domain lights) (:requirements :adl :fluents) (:types lamp) (:constants red - lamp)
     (:predicates (on ?x - lamp)) (:functions (level ?x - lamp))
     (:action switch :parameters (?x - lamp) :precondition (or (not (on ?x)) (> (level red) 2))
       :effect (and (on ?x) (forall (?y - lamp) (when (on ?y) (increase (level ?y) 1)))))
     (:derived (on ?x) (= ?x red)))".
Example a_domain_is_read : exists st' d ws, reads_domain lights init_dstate st' (Ok (VDomain d)) ws /\ spelled ws lights /\ length (d_actions d) = 1 /\ length (d_derived d) = 1.
Proof.
  assert (H : exists d ws, read_with domain_callback domain_table lights init_dstate = Some (Ok (VDomain d), ws) /\ ws = map spell (lex lights) /\ length (d_actions d) = 1 /\ length (d_derived d) = 1).
  { do 2 eexists. split; [vm_compute; reflexivity|]. vm_compute. auto. }
  destruct H as (d & ws & H & -> & A & B). apply read_with_parses in H as (st' & H). exists st', d, (map spell (lex lights)). split; [exact H|]. split; [|auto].
  apply lex_spelled. intros I. assert (X : existsb (fun t => match t with TBad => true | _ => false end) (lex lights) = true) by (apply existsb_exists; eauto). vm_compute in X. discriminate.
Qed.
(** words that touch *)
Example touching_words_are_read :
  match read_with domain_callback domain_table "(define(domainlights)(:predicates(on?x)))" init_dstate with
  | Some (Ok (VDomain d), ws) => parse_domain "(define(domainlights)(:predicates(on?x)))" init_dstate = (init_dstate, Err LarkSyntaxError)
      /\ snd (parse_domain (spaced ws) init_dstate) = Ok d /\ d_name d = "lights"
  | _ => False
  end.
Proof. vm_compute. auto. Qed.
(** a callback's exception: the constant [c] is not declared *)
Example an_exception_is_raised :
  match read_with domain_callback domain_table a_text init_dstate with Some (Err LarkParseError, _) => snd (parse_domain a_text init_dstate) = Err LarkParseError | _ => False end.
Proof. vm_compute. reflexivity. Qed.
Example a_problem_is_read :
  let s := "(define (problem q) (:domain lights) (:objects l1 l2 - lamp) (:init (on l1) (= (level l2) 1.5)) (:goal (not (on l2))))" in
  match read_with problem_callback problem_table s [] with Some (Ok (VProblem p), _) => parse_problem s = Ok p /\ length (p_init p) = 2 | _ => False end.
Proof. vm_compute. auto. Qed.
Example a_plan_is_read :
  let s := "(switch l1) (switch l2)" in
  match read_with plan_callback plan_table s tt with Some (Ok (VPlan p), _) => parse_plan s = Ok p /\ length p = 2 | _ => False end.
Proof. vm_compute. auto. Qed.
(** an exception of a callback comes before a syntax error further on; Parser.v, which reads the whole
    text first, reports the syntax error *)
Example an_exception_before_a_syntax_error :
  let s := "(define (domain d) (:constants c c) (:types" in
  match read_with domain_callback domain_table s init_dstate with Some (Err PDDLParsingError, ws) => ws = ["("; "define"; "("; "domain"; "d"; ")"; "("; ":constants"; "c"; "c"; ")"] | _ => False end
  /\ snd (parse_domain s init_dstate) = Err LarkSyntaxError
  /\ snd (parse_domain "(define (domain d) (:constants c c))" init_dstate) = Err PDDLParsingError.
Proof. vm_compute. auto. Qed.
