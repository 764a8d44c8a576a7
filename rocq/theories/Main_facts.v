(** Facts about the command line tool. *)
From Coq Require Import String List Bool Permutation.
From Verif Require Import Py Names Reqs Logic Validation Core Lexer Show Parser Main.
From Verif Require Import Spec Spec_Core Spec_Parse Spec_Print Spec_Domain Spec_Problem Spec_Format Spec_Layout.
From Verif Require Import Py_facts Names_facts Order_facts CoreEq_facts Core_facts Types_facts Lex_facts Layout_facts Plan_facts
  ProblemText_facts DomainRead_facts Number_facts Format_facts FormatDomain_facts Same_facts Twice_facts Raise_facts RaiseParse_facts Prop_Layout.
Import ListNotations.
Open Scope string_scope.
Open Scope list_scope.

(** ** reading what was printed *)
Lemma newline_read s : (forall st, parse_domain (s +++ nl) st = parse_domain s st)
  /\ parse_problem (s +++ nl) = parse_problem s /\ parse_plan (s +++ nl) = parse_plan s.
Proof.
  destruct (C36_insert s nl "") as (H1 & H2 & H3).
  - apply lay_space; [reflexivity|constructor].
  - rewrite append_nil_r. cbn. now rewrite app_nil_r.
  - rewrite !append_nil_r in *. auto.
Qed.

Lemma parsed_plan_step x n cs : (forall w, atom_in (TWord w) x -> name_regex w = true) ->
  ground_action x = Ok (n, cs) -> identifier n /\ Forall (fun c => legal_name (fst c)) cs
  /\ map (fun c => (fst c, None)) cs = cs.
Proof.
  intros K H. destruct x as [|[|[[]|] args]]; try discriminate. cbn [ground_action] in H.
  apply bind_Ok in H as (ns & _ & H). apply bind_Ok in H as (ts & T & H). injection H as -> <-.
  split. { apply name_regex_spec, K. eapply AI_list; [now left|constructor]. }
  clear K. apply mapR_Ok in T. induction T as [|m t ns ts E T [IH1 IH2]]; cbn; [auto|].
  apply mk_const_Ok in E as (-> & L & _). cbn. split; [constructor; auto|]. now rewrite IH2.
Qed.
Lemma parsed_plan_again s pl : parse_plan s = Ok pl -> parse_plan (show_plan pl) = Ok pl.
Proof.
  intros H. unfold parse_plan in H. destruct (read_text s) as [l|] eqn:R; [|discriminate].
  assert (K : forall x, In x l -> forall w, atom_in (TWord w) x -> name_regex w = true) by (eauto using read_text_word).
  clear R. apply mapR_Ok in H.
  assert (F : Forall (fun st => identifier (fst st) /\ Forall (fun c => legal_name (fst c)) (snd st)) pl
     /\ map (fun st => (fst st, map (fun c => (fst c, @None string)) (snd st))) pl = pl).
  { induction H as [|x [n cs] l pl E H IH]; cbn; [auto|].
    destruct (parsed_plan_step x n cs (K x (or_introl eq_refl)) E) as (A & B & C).
    destruct IH as [I1 I2]; [intros; eapply K; [right|]; eauto|]. split; [constructor; auto|]. now rewrite I2, C. }
  destruct F as [F1 F2]. rewrite parse_show_plan by exact F1. now rewrite F2.
Qed.

(** ** the checks do not see the difference *)
Lemma domain_eqb_fields a b : domain_eqb a b = true -> domain_built a -> domain_built b ->
  d_name a = d_name b /\ Permutation (d_types a) (d_types b) /\ (forall r, In r (d_reqs a) <-> In r (d_reqs b)).
Proof.
  intros E A B. unfold domain_eqb in E. repeat (apply andb_true_iff in E as [E ?]).
  apply String.eqb_eq in E. split; auto.
  destruct (domain_built_types a A) as (NA & _), (domain_built_types b B) as (NB & _). split; [now apply types_perm|].
  match goal with H : set_eqb req_eqb _ _ = true |- _ => unfold set_eqb in H; apply andb_true_iff in H as [S1 S2] end.
  rewrite subset_In in S1, S2. intros r. split; intros I.
  - apply memb_req_In, S1, I.
  - apply memb_req_In, S2, I.
Qed.
Lemma term_typed_same a b t : Permutation (d_types a) (d_types b) -> (forall r, In r (d_reqs a) <-> In r (d_reqs b)) ->
  term_typed (d_types a) (d_reqs a) t -> term_typed (d_types b) (d_reqs b) t.
Proof.
  intros P R [H1 H2]. split.
  - intros N. destruct (H1 N) as [K|K]; [left|right]; now apply R.
  - intros g I. destruct (H2 g I) as [(v & K)|(c & K & L)].
    + left. exists v. now apply (Permutation_in _ P).
    + right. exists c. split; auto. now apply (Permutation_in _ P).
Qed.
Lemma problem_check_again p d q e : domain_built d -> domain_built e -> domain_eqb e d = true ->
  read_back q p -> p_domain p = None -> problem_check p d = Ok tt -> problem_check q e = Ok tt.
Proof.
  intros D E Q [] N C. apply (problem_check_Ok p d D) in C as (C1 & C2 & C3 & C4 & C5).
  destruct (domain_eqb_fields _ _ Q E D) as (F1 & F2 & F3). symmetry in F2.
  assert (T : forall t, term_typed (d_types d) (d_reqs d) t -> term_typed (d_types e) (d_reqs e) t).
  { intros t. apply term_typed_same; auto. intros r. now rewrite F3. }
  assert (U : forall t, t_tags t = [] -> term_typed (d_types e) (d_reqs e) t).
  { intros t X. unfold term_typed. rewrite X. split; [congruence|contradiction]. }
  apply (problem_check_Ok q e E). split; [|split; [|split; [|split]]].
  - unfold get_domain_name at 1. rewrite rb_domain, rb_domain_name, C1. now rewrite F1.
  - intros rs H r I. apply F3. specialize (rb_reqs_of rs H r I). unfold get_requirements in rb_reqs_of. rewrite N in rb_reqs_of.
    destruct (p_reqs p) as [rs'|]; [|destruct rb_reqs_of]. now apply (C2 rs').
  - intros c I. apply T, C3. now apply (Permutation_in _ rb_objects).
  - intros f I t O. rewrite Forall_forall in rb_init_terms. destruct (rb_init_terms f I t O) as [X|(c & Hc & ->)]; auto.
  - intros t O. auto.
Qed.
Lemma plan_check_again pl p d q e : NoDup (map a_name (d_actions d)) -> alike same_action (d_actions e) (d_actions d) ->
  (forall c, In c (d_constants e) <-> In c (d_constants d)) -> Permutation (p_objects q) (p_objects p) ->
  plan_check pl d p = Ok tt -> plan_check pl e q = Ok tt.
Proof.
  intros N (m & F & P) C O H.
  assert (M : map a_name (d_actions e) = map a_name m).
  { clear - F. induction F as [|x y l m (X & _) F IH]; cbn; congruence. }
  rewrite plan_check_Ok in H by exact N. rewrite plan_check_Ok.
  2:{ rewrite M. eapply Permutation_NoDup; [|exact N]. apply Permutation_map. now symmetry. }
  intros st I. destruct (H st I) as (a & A & E & L & K).
  apply (Permutation_in _ (Permutation_sym P)) in A.
  assert (X : exists a', In a' (d_actions e) /\ same_action a' a).
  { clear - F A. induction F as [|x y l m S0 F IH]; [destruct A|]. destruct A as [->|A]; [exists x; cbn; auto|].
    destruct (IH A) as (a' & I & J). exists a'. cbn. auto. }
  destruct X as (a' & A' & S1 & S2 & _). exists a'. split; auto. split; [congruence|]. split.
  - rewrite <- L. clear - S2. induction S2; cbn; congruence.
  - intros c Hc. destruct (K c Hc) as (o & [Ho|Ho] & Eo); exists o; split; auto.
    + left. now apply (Permutation_in _ (Permutation_sym O)).
    + right. now apply C.
Qed.

(** ** the runs of the tool *)
Lemma parsed_built s d : parse_domain_fresh s = Ok d -> domain_built d.
Proof. intros H. apply parsed_domain_parts in H as (n & l & _ & []). assumption. Qed.

Lemma bindW_lift {A B} (r : res A) (k : A -> W B) :
  bindW (lift r) k = match r with Ok a => k a | Err e => ([], Err e) end.
Proof. unfold bindW, lift. cbn. destruct r as [a|]; auto. cbn. now destruct (k a). Qed.
Lemma bindW_print {B} q s (k : unit -> W B) :
  bindW (print q s) k = ((if q then [] else [s +++ nl]) ++ fst (k tt), snd (k tt)).
Proof. reflexivity. Qed.
