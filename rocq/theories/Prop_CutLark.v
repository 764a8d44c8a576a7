(** C79, at the level of the generated parsers: a text that is cut short is rejected by them too, also where
    words touch that Parser.v would not separate; but the transformer keeps what it had read by then. *)
From Coq Require Import String Ascii List Bool NArith.
From Verif Require Import Py Names Reqs Logic Validation Core Lexer Parser Spec_Grammar Words_facts GrammarAll_facts Lark LarkTables Spec_Lark LarkCheck_facts
     Prop_Lark Callbacks CallTree_facts CallDomain_facts CallDomain2_facts CallProblem_facts CallSyntax_facts Grammar_facts Prop_Callbacks
     Spec_Expression Cut_facts Spec_Cut CutLark_facts.
From Verif Require Spec_Layout.
Import ListNotations.
Open Scope string_scope.
Open Scope list_scope.

Lemma domain_scan s st st' v ws : reads_domain s st st' (Ok v) ws -> exists c, scan Before false s = Some (Done, c).
Proof.
  intros H. destruct (C71_an_accepted_text_has_a_tree _ _ _ _ _ _ _ _ _ _ _ _ P_domain (fun _ => eq_refl) H) as (Sg & p & w & T & E & W).
  apply domain_worth in T as (x & [Sx G] & V). unfold worth in W. rewrite V in W. rewrite E in Sx.
  destruct x as [t|l]; [cbn in W; discriminate|]. eapply strung_scan; [exact Sg|]. rewrite Sx. now apply whole_shape.
Qed.
Lemma problem_scan s st st' v ws : reads_problem s st st' (Ok v) ws -> exists c, scan Before false s = Some (Done, c).
Proof.
  intros H. destruct (C71_an_accepted_text_has_a_tree _ _ _ _ _ _ _ _ _ _ _ _ P_problem (fun _ => eq_refl) H) as (Sg & p & w & T & E & W).
  apply problem_worth in T as (x & [Sx G] & V). unfold worth in W. rewrite V in W. rewrite E in Sx.
  destruct x as [t|l]; [cbn in W; discriminate|]. eapply strung_scan; [exact Sg|]. rewrite Sx. now apply whole_shape.
Qed.

(** * What is cut short is rejected *)
Theorem C79_generated_cut : forall a b, ~ adds_nothing a b ->
  (forall st st1 st' v ws, reads_domain (a +++ b) st1 st' (Ok v) ws -> exists st2 e ws2, reads_domain a st st2 (Err e) ws2) /\
  (forall o o1 o' v ws, reads_problem (a +++ b) o1 o' (Ok v) ws -> exists o2 e ws2, reads_problem a o o2 (Err e) ws2).
Proof.
  intros a b N. split.
  - intros st st1 st' v ws H. destruct (C71_every_text_gets_one_answer VTok VNone VSplice unsplice domain_callback "domain" domain_table a st P_domain) as (st2 & r & ws2 & R & _).
    destruct r as [v2|e]; [|eauto]. destruct N. destruct (domain_scan _ _ _ _ _ H) as (c & Q). eapply scan_adds; [eapply domain_scan; exact R|exact Q].
  - intros st st1 st' v ws H. destruct (C71_every_text_gets_one_answer VTok VNone VSplice unsplice problem_callback "problem" problem_table a st P_problem) as (st2 & r & ws2 & R & _).
    destruct r as [v2|e]; [|eauto]. destruct N. destruct (problem_scan _ _ _ _ _ H) as (c & Q). eapply scan_adds; [eapply problem_scan; exact R|exact Q].
Qed.
Print Assumptions C79_generated_cut.

(** * Nothing but whitespace and comments can follow *)
Theorem C79_generated_continued : forall a b, ~ adds_nothing a b ->
  (forall st st1 st' v ws, reads_domain a st1 st' (Ok v) ws -> exists st2 e ws2, reads_domain (a +++ b) st st2 (Err e) ws2) /\
  (forall o o1 o' v ws, reads_problem a o1 o' (Ok v) ws -> exists o2 e ws2, reads_problem (a +++ b) o o2 (Err e) ws2).
Proof.
  intros a b N. split.
  - intros st st1 st' v ws H. destruct (C71_every_text_gets_one_answer VTok VNone VSplice unsplice domain_callback "domain" domain_table (a +++ b) st P_domain) as (st2 & r & ws2 & R & _).
    destruct r as [v2|e]; [|eauto]. destruct N. destruct (domain_scan _ _ _ _ _ R) as (c & Q). eapply scan_adds; [eapply domain_scan; exact H|exact Q].
  - intros st st1 st' v ws H. destruct (C71_every_text_gets_one_answer VTok VNone VSplice unsplice problem_callback "problem" problem_table (a +++ b) st P_problem) as (st2 & r & ws2 & R & _).
    destruct r as [v2|e]; [|eauto]. destruct N. destruct (problem_scan _ _ _ _ _ R) as (c & Q). eapply scan_adds; [eapply problem_scan; exact H|exact Q].
Qed.
Print Assumptions C79_generated_continued.

(** * But the parser is not as it was: the types of a text that was rejected spoil the next call *)
Definition state_of {St} (callback : string -> list value -> St -> St * res value) (tbl : table) (s : string) (st : St) : option (St * res value * list string) :=
  match run tbl lex_text VTok (build VNone VSplice unsplice callback) 1000 (begin (s, []) st) with
  | Some (st', r, (_, log)) => Some (st', r, rev log)
  | None => None
  end.
Lemma state_of_parses {St} (callback : string -> list value -> St -> St * res value) tbl s st st' r ws : state_of callback tbl s st = Some (st', r, ws) ->
  parses VTok VNone VSplice unsplice callback tbl s st st' r ws.
Proof.
  unfold state_of, parses, returns. intros H.
  destruct (run tbl lex_text VTok (build VNone VSplice unsplice callback) 1000 (begin (s, []) st)) as [[[st1 r'] [s' log]]|] eqn:E; [|discriminate].
  inversion H; subst. exists s', 1000. now rewrite rev_involutive.
Qed.
Definition first_text : string := "(define (domain d) (:requirements :typing) (:types a) (:predicates (p ?x - a)))".
Definition cut_text : string := "(define (domain d) (:requirements :typing) (:types a) (:predicates".
Definition next_text : string := "(define (domain d) (:types a b))".
Definition ends_ok (r : res value) : bool := match r with Ok (VDomain _) => true | _ => false end.
Lemma accepted_if {St} (callback : string -> list value -> St -> St * res value) tbl s st :
  match state_of callback tbl s st with Some (_, r, _) => ends_ok r | _ => false end = true -> exists st' v ws, parses VTok VNone VSplice unsplice callback tbl s st st' (Ok v) ws.
Proof.
  destruct (state_of callback tbl s st) as [[[st' r] ws]|] eqn:E; [|discriminate]. apply state_of_parses in E. destruct r as [v|]; [eauto|discriminate].
Qed.
Definition spoils {St} (callback : string -> list value -> St -> St * res value) tbl s t (st : St) : bool :=
  match state_of callback tbl s st with
  | Some (st', Err LarkSyntaxError, _) => match state_of callback tbl t st' with Some (_, Err _, _) => true | _ => false end
  | _ => false
  end.
Lemma spoils_if {St} (callback : string -> list value -> St -> St * res value) tbl s t st : spoils callback tbl s t st = true ->
  exists st' ws st2 e ws2, parses VTok VNone VSplice unsplice callback tbl s st st' (Err LarkSyntaxError) ws /\ parses VTok VNone VSplice unsplice callback tbl t st' st2 (Err e) ws2.
Proof.
  unfold spoils. destruct (state_of callback tbl s st) as [[[st' [v|e]] ws]|] eqn:E; try discriminate. destruct e; try discriminate.
  destruct (state_of callback tbl t st') as [[[st2 [v|e2]] ws2]|] eqn:E2; try discriminate. intros _. apply state_of_parses in E, E2. eauto 8.
Qed.
Lemma the_cut : cut_text +++ " (p ?x - a)))" = first_text. Proof. reflexivity. Qed.
Lemma first_accepted : match state_of domain_callback domain_table first_text init_dstate with Some (_, r, _) => ends_ok r | _ => false end = true.
Proof. vm_compute. reflexivity. Qed.
Lemma next_accepted : match state_of domain_callback domain_table next_text init_dstate with Some (_, r, _) => ends_ok r | _ => false end = true.
Proof. vm_compute. reflexivity. Qed.
Lemma cut_spoils : spoils domain_callback domain_table cut_text next_text init_dstate = true.
Proof. vm_compute. reflexivity. Qed.
Theorem C79_state_refuted : ~ (forall a b st st' ws, reads_domain a st st' (Err LarkSyntaxError) ws -> (exists st1 v wsv, reads_domain (a +++ b) st st1 (Ok v) wsv) ->
  forall t st1 v wsv, reads_domain t st st1 (Ok v) wsv -> exists st2 v2 ws2, reads_domain t st' st2 (Ok v2) ws2).
Proof.
  intros H. destruct (accepted_if domain_callback domain_table first_text init_dstate first_accepted) as (st3 & v3 & ws3 & E3). destruct (accepted_if domain_callback domain_table next_text init_dstate next_accepted) as (st4 & v4 & ws4 & E4).
  destruct (spoils_if domain_callback domain_table cut_text next_text init_dstate cut_spoils) as (st' & ws & st2 & e & ws2 & E1 & E2). rewrite <- the_cut in E3.
  destruct (H _ _ _ _ _ E1 (ex_intro _ st3 (ex_intro _ v3 (ex_intro _ ws3 E3))) _ _ _ _ E4) as (st5 & v5 & ws5 & K).
  destruct (C71_every_text_gets_one_answer VTok VNone VSplice unsplice domain_callback "domain" domain_table next_text st' P_domain) as (x & y & z & R & U).
  pose proof (U _ _ _ E2) as A. pose proof (U _ _ _ K) as B. destruct A as (_ & A & _), B as (_ & B & _). congruence.
Qed.
Print Assumptions C79_state_refuted.

(** ** Examples: "(domaind)" is read as "(domain d)"; its text is cut between two sections *)
Definition touching : string := "(define (domaind) (:types a) (:predicates(p ?x)))".
Example E79_touching : exists st v ws, reads_domain touching init_dstate st (Ok v) ws.
Proof. apply (accepted_if domain_callback domain_table touching init_dstate). vm_compute. reflexivity. Qed.
Example E79_touching_cut : ~ adds_nothing "(define (domaind) (:types a)" " (:predicates(p ?x)))".
Proof. intros H. apply adds_same in H. discriminate. Qed.
