(** Proofs for C88. *)
From Coq Require Import String List Bool.
From Verif Require Import Py Names Reqs Logic Validation Core Lexer TypedList Parser Shared.
From Verif Require Import Py_facts Logic_facts Names_facts Built_facts Domain_facts CoreEq_facts Problem_facts MeaningText_facts Spec_Parse.
Import ListNotations.
Open Scope string_scope.
Open Scope list_scope.

(** ** a call that is not interrupted *)
Lemma alone_bind {X A B} (p : prog X A) (k : A -> prog X B) : forall st, alone (bindP p k) st = (let '(st', r) := alone p st in match r with Ok a => alone (k a) st' | Err e => (st', Err e) end).
Proof. induction p as [[a|e]|f k' IH]; intros st; cbn; auto. Qed.
Lemma alone_callback {X A} (m : X -> X * res A) st : alone (callback m) st = m st.
Proof. cbn. now destruct (m st). Qed.
Lemma alone_step {A B} (p : prog dstate A) (k : A -> prog dstate B) m k' st : (forall st, alone p st = m st) -> (forall a st, alone (k a) st = k' a st) ->
  alone (bindP p k) st = bindM m k' st.
Proof. intros H K. rewrite alone_bind, H. unfold bindM. destruct (m st) as [st' [a|e]]; auto. Qed.
Lemma alone_opt {A} (f : list sexp -> M A) o st : alone (optP f o) st = optM f o st.
Proof. destruct o; [|reflexivity]. apply alone_step; [apply alone_callback|reflexivity]. Qed.
Lemma alone_map {A B} (f : A -> prog dstate B) g l : (forall x st, alone (f x) st = g x st) -> forall st, alone (mapP f l) st = mapM g l st.
Proof.
  intros H. induction l as [|x l IH]; intros st; [reflexivity|]. cbn [mapP mapM]. apply alone_step; [apply H|]. intros a s1. apply alone_step; [apply IH|]. reflexivity.
Qed.
Lemma alone_action l st : alone (action_prog l) st = action_def l st.
Proof.
  destruct l as [|[[]|] [|k [|[|ps] body]]]; try reflexivity. cbn [action_prog action_def]. destruct (is_kw ":parameters" k); [|reflexivity].
  apply alone_step; [apply alone_callback|]. intros a s1. apply alone_step; [apply alone_callback|reflexivity].
Qed.
Lemma alone_derived l st : alone (derived_prog l) st = derived_def l st.
Proof.
  destruct l as [|h [|x [|]]]; try reflexivity. cbn [derived_prog derived_def]. apply alone_step; [reflexivity|]. intros a s1.
  apply alone_step; [apply alone_callback|]. intros b s2. apply alone_callback.
Qed.
Lemma alone_structure s st : alone (structure_prog s) st = structure_def s st.
Proof.
  destruct s as [|[|k body]]; try reflexivity. cbn [structure_prog structure_def].
  destruct (is_kw ":action" k); [|destruct (is_kw ":derived" k); [|reflexivity]]; apply alone_step; try reflexivity; [apply alone_action|apply alone_derived].
Qed.
Lemma alone_domain n l0 st : alone (domain_prog n l0) st = domain_rule n l0 st.
Proof.
  unfold domain_prog, domain_rule. destruct (section ":requirements" l0) as [o1 l1]. apply alone_step; [apply alone_opt|]. intros rs s1.
  destruct (section ":types" l1) as [o2 l2]. apply alone_step; [apply alone_opt|]. intros ty s2.
  destruct (section ":constants" l2) as [o3 l3]. apply alone_step; [apply alone_opt|]. intros cs s3.
  destruct (section ":predicates" l3) as [o4 l4]. apply alone_step; [apply alone_opt|]. intros ps s4.
  destruct (section ":functions" l4) as [o5 l5]. apply alone_step; [apply alone_opt|]. intros fs s5.
  apply alone_step; [apply alone_map, alone_structure|]. intros xs s6. cbv zeta. apply alone_step; [apply alone_callback|reflexivity].
Qed.
Lemma alone_parse s st : alone (parse_prog s) st = parse_domain s st.
Proof.
  unfold parse_prog, parse_domain, parse_domain_sexp. destruct (read_text s) as [l|]; [|reflexivity].
  destruct l as [|x l]; try reflexivity. destruct x as [|x]; try reflexivity.
  destruct x as [|k1 x]; try reflexivity. destruct k1 as [k1|]; try reflexivity. destruct k1; try reflexivity.
  destruct x as [|x1 secs]; try reflexivity. destruct x1 as [|x1]; try reflexivity.
  destruct x1 as [|k2 x1]; try reflexivity. destruct k2 as [k2|]; try reflexivity. destruct k2; try reflexivity.
  destruct x1 as [|n x1]; try reflexivity. destruct n as [n|]; try reflexivity. destruct n; try reflexivity.
  destruct x1; try reflexivity. destruct l; try reflexivity.
  match goal with |- context [if ?b then _ else _] => destruct b end; [apply alone_domain|reflexivity].
Qed.

(** ** own parsers *)
Lemma put_map {A B} (g : A -> B) l : forall i x y, nth_error l i = Some y -> g x = g y -> map g (put i x l) = map g l.
Proof.
  induction l as [|z l IH]; intros [|i] x y H E; cbn in *; try discriminate; [injection H as ->; now rewrite E|]. f_equal. eapply IH; eauto.
Qed.
Definition verdict {X A} (w : X * prog X A) : X * res A := alone (snd w) (fst w).
Lemma own_step_verdict {X A} (w : list (X * prog X A)) i : map verdict (own_step w i) = map verdict w.
Proof.
  unfold own_step. destruct (nth_error w i) as [[st [r|f k]]|] eqn:E; auto. eapply put_map; [exact E|reflexivity].
Qed.
Lemma own_verdict {X A} sched : forall w : list (X * prog X A), map verdict (fold_left own_step sched w) = map verdict w.
Proof. induction sched as [|i sched IH]; intros w; auto. cbn. now rewrite IH, own_step_verdict. Qed.

(** ** one parser: what a call returns whatever the other threads do *)
Fixpoint every {X A} (Q : A -> Prop) (p : prog X A) : Prop :=
  match p with Done (Ok a) => Q a | Done (Err _) => True | Step f k => forall st, every Q (k st) end.
Lemma every_bind {X A B} (P : A -> Prop) (Q : B -> Prop) (p : prog X A) k : every P p -> (forall a, P a -> every Q (k a)) -> every Q (bindP p k).
Proof. intros H K. induction p as [[a|e]|f k' IH]; cbn in *; auto. Qed.
Lemma every_true {X A} (p : prog X A) : every (fun _ => True) p.
Proof. induction p as [[a|e]|f k IH]; cbn; auto. Qed.
Lemma every_callback {X A} (P : A -> Prop) (m : X -> X * res A) : (forall st st' a, m st = (st', Ok a) -> P a) -> every P (callback m).
Proof. intros H st. cbn. destruct (m st) as [st' [a|e]] eqn:E; cbn; eauto. Qed.
Lemma put_Forall {A} (P : A -> Prop) l : forall i x, Forall P l -> P x -> Forall P (put i x l).
Proof. induction l as [|y l IH]; intros [|i] x F X; cbn; auto; inversion F; subst; constructor; auto. Qed.
Lemma nth_put {A} l : forall i (x : A) j y, nth_error (put i x l) j = Some y -> nth_error l j = Some y \/ (j = i /\ y = x /\ exists z, nth_error l i = Some z).
Proof.
  induction l as [|z l IH]; intros [|i] x [|j] y H; cbn in *; try discriminate; auto.
  - injection H as <-. right. eauto.
  - apply IH in H as [H|(-> & -> & H)]; auto.
Qed.
Lemma shared_every {X A} (Q : nat -> A -> Prop) sched : forall w : X * list (prog X A), (forall i p, nth_error (snd w) i = Some p -> every (Q i) p) ->
  forall i p, nth_error (snd (fold_left shared_step sched w)) i = Some p -> every (Q i) p.
Proof.
  induction sched as [|j sched IH]; intros w H; auto. cbn [fold_left]. apply IH. intros i p E. unfold shared_step in E.
  destruct (nth_error (snd w) j) as [[r|f k]|] eqn:J; try now apply H. cbn [snd] in E. apply nth_put in E as [E|(-> & -> & _)]; auto.
  apply H in J. apply J.
Qed.
(** a value that only depends on the text *)
Definition fixed {A} (m : M A) (a : A) : Prop := forall st st' b, m st = (st', Ok b) -> b = a.
Definition settled {A} (m : M A) : Prop := forall st st' a, m st = (st', Ok a) -> fixed m a.
Lemma requirements_settled l : settled (requirements l).
Proof.
  intros st st' a H s1 s1' b K. unfold requirements in *. apply bindM_Ok in H as (x1 & r & R & H). apply ret_Ok in R as [-> R]. apply bindM_Ok in H as (x2 & [] & _ & H). apply ret_Ok in H as [_ H].
  apply bindM_Ok in K as (y1 & r' & R' & K). apply ret_Ok in R' as [-> R']. apply bindM_Ok in K as (y2 & [] & _ & K). apply ret_Ok in K as [_ K]. congruence.
Qed.
Lemma types_settled l : settled (types_section l).
Proof.
  intros st st' a H s1 s1' b K. unfold types_section in *. apply bindM_Ok in H as (x1 & r & R & H). apply ret_Ok in R as [-> R]. apply bindM_Ok in H as (x2 & [] & _ & H). cbv zeta in H.
  apply bindM_Ok in H as (x3 & [] & _ & H). apply bindM_Ok in H as (x4 & [] & _ & H). apply ret_Ok in H as [_ H].
  apply bindM_Ok in K as (y1 & r' & R' & K). apply ret_Ok in R' as [-> R']. apply bindM_Ok in K as (y2 & [] & _ & K). cbv zeta in K.
  apply bindM_Ok in K as (y3 & [] & _ & K). apply bindM_Ok in K as (y4 & [] & _ & K). apply ret_Ok in K as [_ K]. congruence.
Qed.
Lemma constants_settled l : settled (constants_section l).
Proof.
  intros st st' a H s1 s1' b K. unfold constants_section in *. apply bindM_Ok in H as (x1 & r & R & H). apply ret_Ok in R as [-> R]. apply bindM_Ok in H as (x2 & c & C & H). apply ret_Ok in C as [-> C]. apply bindM_Ok in H as (x3 & [] & _ & H). apply ret_Ok in H as [_ H].
  apply bindM_Ok in K as (y1 & r' & R' & K). apply ret_Ok in R' as [-> R']. apply bindM_Ok in K as (y2 & c' & C' & K). apply ret_Ok in C' as [-> C']. apply bindM_Ok in K as (y3 & [] & _ & K). apply ret_Ok in K as [_ K]. congruence.
Qed.
Lemma predicates_settled l : settled (predicates_section l).
Proof.
  intros st st' a H s1 s1' b K. unfold predicates_section in *. apply bindM_Ok in H as (x1 & r & R & H). apply ret_Ok in R as [-> R]. apply bindM_Ok in H as (x2 & [] & _ & H). apply ret_Ok in H as [_ H].
  apply bindM_Ok in K as (y1 & r' & R' & K). apply ret_Ok in R' as [-> R']. apply bindM_Ok in K as (y2 & [] & _ & K). apply ret_Ok in K as [_ K]. congruence.
Qed.
Lemma functions_settled l : settled (ret (functions_section l)).
Proof. intros st st' a H s1 s1' b K. apply ret_Ok in H as [_ H]. apply ret_Ok in K as [_ K]. congruence. Qed.
Lemma opt_settled {A} (f : list sexp -> M A) o : (forall l, settled (f l)) -> every (fixed (optM f o)) (optP f o).
Proof.
  intros S. destruct o as [l|]; cbn [optP optM].
  - apply (every_bind (fixed (f l))); [apply every_callback, S|]. intros a F st st' b H. cbn [optM] in H. apply bindM_Ok in H as (x & c & C & H). apply ret_Ok in H as [_ H]. apply F in C. congruence.
  - intros st st' b H. apply ret_Ok in H as [_ H]. congruence.
Qed.
Definition same_declarations (d d0 : domain) : Prop :=
  d_name d = d_name d0 /\ d_reqs d = d_reqs d0 /\ d_types d = d_types d0 /\ d_constants d = d_constants d0
  /\ d_predicates d = d_predicates d0 /\ d_functions d = d_functions d0.
Lemma domain_every n l0 : every (fun d => forall st st' d0, domain_rule n l0 st = (st', Ok d0) -> same_declarations d d0) (domain_prog n l0).
Proof.
  unfold domain_prog. destruct (section ":requirements" l0) as [o1 l1] eqn:S1. eapply every_bind; [apply opt_settled, requirements_settled|]. intros rs Frs.
  destruct (section ":types" l1) as [o2 l2] eqn:S2. eapply every_bind; [apply opt_settled, types_settled|]. intros ty Fty.
  destruct (section ":constants" l2) as [o3 l3] eqn:S3. eapply every_bind; [apply opt_settled, constants_settled|]. intros cs Fcs.
  destruct (section ":predicates" l3) as [o4 l4] eqn:S4. eapply every_bind; [apply opt_settled, predicates_settled|]. intros ps Fps.
  destruct (section ":functions" l4) as [o5 l5] eqn:S5. eapply every_bind; [apply opt_settled; intros l; apply functions_settled|]. intros fs Ffs.
  eapply every_bind; [apply every_true|]. intros xs _. cbv zeta. eapply every_bind; [apply every_true|]. intros _ _.
  match goal with |- every _ (Done ?r) => destruct r as [d|] eqn:D end; [|exact I]. intros st st' d0 H.
  apply domain_rule_inv in H as (p1 & m1 & t1 & rs' & p2 & m2 & t2 & ty' & p3 & m3 & t3 & cs' & p4 & m4 & t4 & ps' & p5 & m5 & fs' & t6 & xs'
    & A1 & R1 & A2 & R2 & A3 & R3 & A4 & R4 & A5 & R5 & _ & _ & K).
  rewrite S1 in A1. injection A1 as <- <-. rewrite S2 in A2. injection A2 as <- <-. rewrite S3 in A3. injection A3 as <- <-. rewrite S4 in A4. injection A4 as <- <-. rewrite S5 in A5. injection A5 as <- <-.
  apply Frs in R1. apply Fty in R2. apply Fcs in R3. apply Fps in R4. apply Ffs in R5. subst.
  apply mk_domain_inv in D as (N & _ & Er & Et & _ & Ec & Ep & _ & Ef & _). apply mk_domain_inv in K as (N' & _ & Er' & Et' & _ & Ec' & Ep' & _ & Ef' & _).
  unfold same_declarations. rewrite N, N', Er, Er', Ec, Ec', Ep, Ep', Ef, Ef'. rewrite Et in Et'. injection Et' as ->. auto 10.
Qed.
Lemma parse_every s : every (fun d => forall st st' d0, parse_domain s st = (st', Ok d0) -> same_declarations d d0) (parse_prog s).
Proof.
  unfold parse_prog, parse_domain, parse_domain_sexp. destruct (read_text s) as [l|]; [|exact I].
  destruct l as [|x l]; try exact I. destruct x as [|x]; try exact I.
  destruct x as [|k1 x]; try exact I. destruct k1 as [k1|]; try exact I. destruct k1; try exact I.
  destruct x as [|x1 secs]; try exact I. destruct x1 as [|x1]; try exact I.
  destruct x1 as [|k2 x1]; try exact I. destruct k2 as [k2|]; try exact I. destruct k2; try exact I.
  destruct x1 as [|n x1]; try exact I. destruct n as [n|]; try exact I. destruct n; try exact I.
  destruct x1; try exact I. destruct l; try exact I.
  match goal with |- context [if ?b then _ else _] => destruct b end; [apply domain_every|exact I].
Qed.

(** ** every call finishes *)
Fixpoint bounded {X A} (n : nat) (p : prog X A) {struct n} : Prop :=
  match p with Done _ => True | Step f k => match n with O => False | S n => forall st, bounded n (k st) end end.
Lemma bounded_Done {X A} n (r : res A) : bounded (X := X) n (Done r).
Proof. destruct n; exact I. Qed.
Lemma bounded_le {X A} n : forall m (p : prog X A), n <= m -> bounded n p -> bounded m p.
Proof.
  induction n as [|n IH]; intros m [r|f k] L H; try (destruct m; exact I); try destruct H. destruct m; [inversion L|]. cbn in *. intros st. apply IH; auto. now apply le_S_n.
Qed.
Lemma bounded_bind {X A B} (p : prog X A) (k : A -> prog X B) m : forall n, bounded n p -> (forall a, bounded m (k a)) -> bounded (n + m) (bindP p k).
Proof.
  intros n H K. revert n H. induction p as [[a|e]|f k' IH]; intros n H; cbn [bindP].
  - apply (bounded_le m); auto. apply PeanoNat.Nat.le_add_l.
  - apply bounded_Done.
  - destruct n; [destruct H|]. cbn in *. auto.
Qed.
Lemma bounded_callback {X A} (m : X -> X * res A) : bounded 1 (callback m).
Proof. intros st. exact I. Qed.
Lemma bounded_opt {A} (f : list sexp -> M A) o : bounded 1 (optP f o).
Proof. destruct o; [|apply bounded_Done]. apply (bounded_bind _ _ 0 1); [apply bounded_callback|intros; apply bounded_Done]. Qed.
Lemma bounded_map {X A B} (f : A -> prog X B) n l : (forall x, bounded n (f x)) -> bounded (length l * n) (mapP f l).
Proof.
  intros H. induction l as [|x l IH]; [exact I|]. cbn [mapP length Nat.mul]. apply bounded_bind; auto. intros a.
  rewrite <- (PeanoNat.Nat.add_0_r (length l * n)). apply bounded_bind; auto. intros b. exact I.
Qed.
Lemma bounded_structure s : bounded 2 (structure_prog s).
Proof.
  destruct s as [|[|k body]]; try exact I. cbn [structure_prog]. destruct (is_kw ":action" k); [|destruct (is_kw ":derived" k); [|exact I]];
  apply (bounded_bind _ _ 0 2); try (intros; exact I).
  - destruct body as [|[[]|] [|k' [|[|ps] b]]]; try exact I. cbn [action_prog]. destruct (is_kw ":parameters" k'); [|exact I].
    apply (bounded_bind _ _ 1 1); [apply bounded_callback|]. intros a. apply (bounded_bind _ _ 0 1); [apply bounded_callback|intros; exact I].
  - destruct body as [|h [|x [|]]]; try exact I. cbn [derived_prog]. apply (bounded_bind _ _ 2 0); [exact I|]. intros a.
    apply (bounded_bind _ _ 1 1); [apply bounded_callback|]. intros b. apply bounded_callback.
Qed.
Lemma bounded_domain n l0 : exists m, bounded m (domain_prog n l0).
Proof.
  unfold domain_prog. destruct (section ":requirements" l0) as [o1 l1]. destruct (section ":types" l1) as [o2 l2] eqn:S2. destruct (section ":constants" l2) as [o3 l3] eqn:S3.
  destruct (section ":predicates" l3) as [o4 l4] eqn:S4. destruct (section ":functions" l4) as [o5 l5] eqn:S5.
  exists (1 + (1 + (1 + (1 + (1 + (length l5 * 2 + (1 + 0))))))).
  do 5 (apply bounded_bind; [apply bounded_opt|intros ?]). apply bounded_bind; [apply bounded_map, bounded_structure|]. intros xs. cbv zeta.
  apply bounded_bind; [apply bounded_callback|intros; exact I].
Qed.
Lemma bounded_parse s : exists m, bounded m (parse_prog s).
Proof.
  unfold parse_prog. destruct (read_text s) as [l|]; [|now exists 0].
  destruct l as [|x l]; try (now exists 0). destruct x as [|x]; try (now exists 0).
  destruct x as [|k1 x]; try (now exists 0). destruct k1 as [k1|]; try (now exists 0). destruct k1; try (now exists 0).
  destruct x as [|x1 secs]; try (now exists 0). destruct x1 as [|x1]; try (now exists 0).
  destruct x1 as [|k2 x1]; try (now exists 0). destruct k2 as [k2|]; try (now exists 0). destruct k2; try (now exists 0).
  destruct x1 as [|n x1]; try (now exists 0). destruct n as [n|]; try (now exists 0). destruct n; try (now exists 0).
  destruct x1; try (now exists 0). destruct l; try (now exists 0).
  match goal with |- context [if ?b then _ else _] => destruct b end; [apply bounded_domain|now exists 0].
Qed.
Lemma nth_put_same {A} l : forall i (x y : A), nth_error l i = Some y -> nth_error (put i x l) i = Some x.
Proof. induction l as [|z l IH]; intros [|i] x y H; cbn in *; try discriminate; eauto. Qed.
Lemma nth_put_other {A} l : forall i j (x : A), j <> i -> nth_error (put i x l) j = nth_error l j.
Proof. induction l as [|z l IH]; intros [|i] [|j] x H; cbn in *; auto; congruence. Qed.
Definition turns (i : nat) (sched : list nat) : nat := count_occ PeanoNat.Nat.eq_dec sched i.
Lemma shared_finishes {X A} sched : forall (w : X * list (prog X A)) i p n, nth_error (snd w) i = Some p -> bounded n p -> n <= turns i sched ->
  exists r, nth_error (snd (fold_left shared_step sched w)) i = Some (Done r).
Proof.
  induction sched as [|j sched IH]; intros w i p n H B L.
  - destruct n; [|inversion L]. destruct p; [eauto|destruct B].
  - cbn [fold_left]. unfold turns in *. cbn [count_occ] in L. unfold shared_step at 2. destruct (PeanoNat.Nat.eq_dec j i) as [->|N].
    + rewrite H. destruct p as [r|f k]; [apply (IH w i _ 0 H I), le_0_n|]. destruct n; [destruct B|]. cbn in B.
      eapply IH; [cbn [snd]; eapply nth_put_same; eassumption|apply B|now apply le_S_n].
    + destruct (nth_error (snd w) j) as [[r|f k]|] eqn:J; try (now eapply IH; eauto). eapply IH; [cbn [snd]; rewrite nth_put_other by auto; eassumption|eassumption|assumption].
Qed.
Lemma own_finishes {X A} sched : forall (w : list (X * prog X A)) i st p n, nth_error w i = Some (st, p) -> bounded n p -> n <= turns i sched ->
  exists st r, nth_error (fold_left own_step sched w) i = Some (st, Done r).
Proof.
  induction sched as [|j sched IH]; intros w i st p n H B L.
  - destruct n; [|inversion L]. destruct p; [eauto|destruct B].
  - cbn [fold_left]. unfold turns in *. cbn [count_occ] in L. unfold own_step at 2. destruct (PeanoNat.Nat.eq_dec j i) as [->|N].
    + rewrite H. destruct p as [r|f k]; [apply (IH w i st _ 0 H I), le_0_n|]. destruct n; [destruct B|]. cbn in B.
      eapply IH; [eapply nth_put_same; eassumption|apply B|now apply le_S_n].
    + destruct (nth_error w j) as [[st' [r|f k]]|] eqn:J; try (now eapply IH; eauto). eapply IH; [rewrite nth_put_other by auto; eassumption|eassumption|assumption].
Qed.

(** ** problem parsers *)
Lemma alone_pure_map {X A B} (f : A -> prog X B) g l d : (forall x, alone (f x) d = (d, g x)) -> alone (mapP f l) d = (d, mapR g l).
Proof.
  intros H. induction l as [|x l IH]; [reflexivity|]. cbn [mapP mapR]. rewrite alone_bind, H. destruct (g x) as [y|e]; [|reflexivity]. cbn [bind].
  rewrite alone_bind, IH. now destruct (mapR g l).
Qed.
Lemma alone_object x d : alone (object_prog x) d = (d, match dict_get String.eqb x d with Some k => Ok (Some (const_term k)) | None => let* c := mk_const x None in Ok (Some c) end).
Proof. cbn. destruct (dict_get String.eqb x d) eqn:E; cbn; [now rewrite E|reflexivity]. Qed.
Lemma mapR_Some {A B} (f : A -> res (option B)) g l : (forall x, f x = let* y := g x in Ok (Some y)) -> mapR f l = let* ys := mapR g l in Ok (map Some ys).
Proof. intros H. induction l as [|x l IH]; [reflexivity|]. cbn [mapR]. rewrite H, IH. destruct (g x); cbn; [|reflexivity]. now destruct (mapR g l). Qed.
Lemma pred_some_all n ts : pred_some n (map Some ts) = mk_pred n ts.
Proof.
  unfold pred_some. assert (E : present (map Some ts) = ts) by (induction ts; cbn; congruence). rewrite E.
  assert (F : forallb (fun o => match o with Some _ => true | None => false end) (map (@Some term) ts) = true) by (clear; induction ts; cbn; auto). rewrite F. now destruct (mk_pred n ts).
Qed.
Lemma alone_atom s d : alone (atom_prog s) d = (d, atomic_formula_name d s).
Proof.
  destruct s as [|l]; try reflexivity. destruct l as [|[t|] args]; try reflexivity. destruct t; try reflexivity. cbn [atom_prog atomic_formula_name].
  rewrite alone_bind. cbn [alone]. destruct (of_opt (mapO word args)) as [ns|e]; [|reflexivity]. cbn [bind]. rewrite alone_bind.
  rewrite (alone_pure_map _ _ _ _ (fun x => alone_object x d)).
  rewrite (mapR_Some _ (fun x => match dict_get String.eqb x d with Some k => Ok (const_term k) | None => mk_const x None end)).
  2:{ intros x. now destruct (dict_get String.eqb x d). }
  match goal with |- context [mapR ?f ns] => destruct (mapR f ns) as [ts|e] end; [|reflexivity]. cbn [bind alone]. now rewrite pred_some_all.
Qed.
Lemma alone_init s d : alone (init_prog s) d = (d, init_el d s).
Proof.
  destruct s as [|l]; try reflexivity. destruct l as [|[t|] args]; try reflexivity. destruct t; try reflexivity. cbn [init_prog].
  unfold init_el. fold init_el. destruct (String.eqb s "not"); [|apply alone_atom]. destruct args as [|x [|]]; try reflexivity. rewrite alone_bind, alone_atom. now destruct (atomic_formula_name d x).
Qed.
Lemma alone_problem n dn l0 d : snd (alone (problem_prog n dn l0) d) = problem_rule d n dn l0.
Proof.
  unfold problem_prog, problem_rule. destruct (section ":requirements" l0) as [o1 l1]. rewrite alone_bind. cbn [alone]. destruct (opt_res require_keys o1) as [rs|e]; [|reflexivity]. cbn [bind].
  destruct (section ":objects" l1) as [o2 l2]. rewrite alone_bind.
  assert (R : forall d' os, snd (alone (match section ":init" l2 with
  | (Some inits, l3) =>
      bindP (mapP init_prog inits) (fun init =>
      match section ":goal" l3 with
      | (Some [g], l4) =>
          bindP (Done (gd problem_ctx g)) (fun goal =>
          let '(o5, l5) := section ":metric" l4 in
          bindP (Done (opt_res metric_spec o5)) (fun m =>
          match l5 with
          | [] => Done (mk_problem n None (Some dn) rs os init (Some goal) m)
          | _ => Done syntax
          end))
      | _ => Done syntax
      end)
  | (None, _) => Done syntax
  end) d') = match section ":init" l2 with
  | (Some inits, l3) =>
      let* init := mapR (init_el d') inits in
      match section ":goal" l3 with
      | (Some [g], l4) =>
          let* goal := gd problem_ctx g in
          let '(o5, l5) := section ":metric" l4 in
          let* m := opt_res metric_spec o5 in
          match l5 with
          | [] => mk_problem n None (Some dn) rs os init (Some goal) m
          | _ => syntax
          end
      | _ => syntax
      end
  | (None, _) => syntax
  end).
  { intros d' os. destruct (section ":init" l2) as [[inits|] l3]; [|reflexivity]. rewrite alone_bind, (alone_pure_map _ _ _ _ (fun x => alone_init x d')).
    destruct (mapR (init_el d') inits) as [init|e]; [|reflexivity]. cbn [bind]. destruct (section ":goal" l3) as [[[|g [|]]|] l4]; try reflexivity.
    cbn [bindP]. destruct (gd problem_ctx g) as [goal|e]; [|reflexivity]. cbn [bind]. destruct (section ":metric" l4) as [o5 l5]. cbn [bindP]. destruct (opt_res metric_spec o5) as [m|e]; [|reflexivity]. cbn [bind].
    now destruct l5. }
  destruct o2 as [l|]; cbn [opt_res].
  - unfold objects_prog. cbn [bindP]. destruct (objects_section l) as [D|e]; [|reflexivity]. cbn [bindP alone bind]. apply R.
  - cbn [alone bind]. apply R.
Qed.
Lemma alone_parse_problem s d : snd (alone (parse_problem_prog s) d) = parse_problem_from d s.
Proof.
  unfold parse_problem_prog, parse_problem_from, parse_problem_sexp. destruct (read_text s) as [l|]; [|reflexivity].
  destruct l as [|x l]; try reflexivity. destruct x as [|x]; try reflexivity.
  destruct x as [|k1 x]; try reflexivity. destruct k1 as [k1|]; try reflexivity. destruct k1; try reflexivity.
  destruct x as [|x1 x]; try reflexivity. destruct x1 as [|x1]; try reflexivity.
  destruct x1 as [|k2 x1]; try reflexivity. destruct k2 as [k2|]; try reflexivity. destruct k2; try reflexivity.
  destruct x1 as [|n x1]; try reflexivity. destruct n as [n|]; try reflexivity. destruct n; try reflexivity.
  destruct x1; try reflexivity. destruct x as [|x2 secs]; try reflexivity. destruct x2 as [|x2]; try reflexivity.
  destruct x2 as [|k3 x2]; try reflexivity. destruct x2 as [|dn x2]; try reflexivity. destruct dn as [dn|]; try reflexivity. destruct dn; try reflexivity. destruct x2; try reflexivity. destruct l; try reflexivity.
  match goal with |- context [if ?b then _ else _] => destruct b end; [apply alone_problem|reflexivity].
Qed.
Lemma bounded_mono {X A B} (p : prog X A) (k : A -> prog X B) n m : bounded n p -> (forall a, bounded m (k a)) -> exists n, bounded n (bindP p k).
Proof. intros. exists (n + m). now apply bounded_bind. Qed.
Lemma bounded_object x : bounded 2 (object_prog x).
Proof. intros d. destruct (dict_get String.eqb x d); [intros d'; exact I|exact I]. Qed.
Lemma bounded_atom s : exists n, bounded n (atom_prog s).
Proof.
  destruct s as [|l]; try (now exists 0). destruct l as [|[t|] args]; try (now exists 0). destruct t; try (now exists 0). cbn [atom_prog bindP].
  destruct (of_opt (mapO word args)) as [ns|e]; [|now exists 0]. eapply (bounded_mono _ _ _ 0); [apply bounded_map, bounded_object|intros; exact I].
Qed.
Lemma bounded_init s : exists n, bounded n (init_prog s).
Proof.
  destruct s as [|l]; try (now exists 0). destruct l as [|[t|] args]; try (now exists 0). destruct t; try (now exists 0). cbn [init_prog].
  destruct (String.eqb s "not"); [|apply bounded_atom]. destruct args as [|x [|]]; try (now exists 0). destruct (bounded_atom x) as [n B]. eapply (bounded_mono _ _ _ 0); [exact B|intros; exact I].
Qed.
Lemma bounded_maps {X A B} (f : A -> prog X B) l : (forall x, exists n, bounded n (f x)) -> exists n, bounded n (mapP f l).
Proof.
  intros H. induction l as [|x l [n IH]]; [now exists 0|]. destruct (H x) as [m Hx]. cbn [mapP]. eapply (bounded_mono _ _ _ (n + 0)); [exact Hx|].
  intros a. apply bounded_bind; [exact IH|intros; exact I].
Qed.
Lemma bounded_problem n dn l0 : exists m, bounded m (problem_prog n dn l0).
Proof.
  unfold problem_prog. destruct (section ":requirements" l0) as [o1 l1]. cbn [bindP]. destruct (opt_res require_keys o1) as [rs|e]; [|now exists 0].
  destruct (section ":objects" l1) as [o2 l2].
  assert (O : bounded 2 (match o2 with Some l => objects_prog l | None => Done (Ok []) end)).
  { destruct o2 as [l|]; [|exact I]. unfold objects_prog. cbn [bindP]. destruct (objects_section l); [|exact I]. intros d d'. exact I. }
  assert (K : exists m, forall os : list const, bounded m (match section ":init" l2 with
  | (Some inits, l3) =>
      bindP (mapP init_prog inits) (fun init =>
      match section ":goal" l3 with
      | (Some [g], l4) =>
          bindP (Done (gd problem_ctx g)) (fun goal =>
          let '(o5, l5) := section ":metric" l4 in
          bindP (Done (opt_res metric_spec o5)) (fun m =>
          match l5 with
          | [] => Done (mk_problem n None (Some dn) rs os init (Some goal) m)
          | _ => Done syntax
          end))
      | _ => Done syntax
      end)
  | (None, _) => Done syntax
  end)).
  { destruct (section ":init" l2) as [[inits|] l3]; [|now exists 0]. destruct (bounded_maps init_prog inits bounded_init) as [m B]. exists (m + 0). intros os. apply bounded_bind; [exact B|]. intros init.
    destruct (section ":goal" l3) as [[[|g [|]]|] l4]; try exact I. cbn [bindP]. destruct (gd problem_ctx g) as [goal|e]; [|exact I]. destruct (section ":metric" l4) as [o5 l5]. cbn [bindP].
    destruct (opt_res metric_spec o5); [|exact I]. destruct l5; exact I. }
  destruct K as [m K]. exists (2 + m). apply bounded_bind; auto.
Qed.
Lemma bounded_parse_problem s : exists m, bounded m (parse_problem_prog s).
Proof.
  unfold parse_problem_prog. destruct (read_text s) as [l|]; [|now exists 0].
  destruct l as [|x l]; try (now exists 0). destruct x as [|x]; try (now exists 0).
  destruct x as [|k1 x]; try (now exists 0). destruct k1 as [k1|]; try (now exists 0). destruct k1; try (now exists 0).
  destruct x as [|x1 x]; try (now exists 0). destruct x1 as [|x1]; try (now exists 0).
  destruct x1 as [|k2 x1]; try (now exists 0). destruct k2 as [k2|]; try (now exists 0). destruct k2; try (now exists 0).
  destruct x1 as [|n x1]; try (now exists 0). destruct n as [n|]; try (now exists 0). destruct n; try (now exists 0).
  destruct x1; try (now exists 0). destruct x as [|x2 secs]; try (now exists 0). destruct x2 as [|x2]; try (now exists 0).
  destruct x2 as [|k3 x2]; try (now exists 0). destruct x2 as [|dn x2]; try (now exists 0). destruct dn as [dn|]; try (now exists 0). destruct dn; try (now exists 0). destruct x2; try (now exists 0). destruct l; try (now exists 0).
  match goal with |- context [if ?b then _ else _] => destruct b end; [apply bounded_problem|now exists 0].
Qed.

(** results whatever the other threads do, as long as they keep [J] *)
Fixpoint always {X A} (J : X -> Prop) (Q : A -> Prop) (p : prog X A) : Prop :=
  match p with Done (Ok a) => Q a | Done (Err _) => True | Step f k => forall st, J st -> J (f st) /\ always J Q (k st) end.
Lemma always_bind {X A B} J (P : A -> Prop) (Q : B -> Prop) (p : prog X A) k : always J P p -> (forall a, P a -> always J Q (k a)) -> always J Q (bindP p k).
Proof. intros H K. induction p as [[a|e]|f k' IH]; cbn in *; auto. intros st Hs. destruct (H st Hs). auto. Qed.
Lemma always_impl {X A} J (P Q : A -> Prop) (p : prog X A) : (forall a, P a -> Q a) -> always J P p -> always J Q p.
Proof. intros H. induction p as [[a|e]|f k IH]; cbn; auto. intros K st Hs. destruct (K st Hs). auto. Qed.
Lemma always_alone {X A} J (Q : A -> Prop) (p : prog X A) : always J Q p -> forall st a, J st -> snd (alone p st) = Ok a -> Q a.
Proof.
  induction p as [[a|e]|f k IH]; cbn; intros H st b Hs E; try discriminate; [now injection E as <-|]. destruct (H st Hs) as [Hf Hk]. exact (IH st Hk _ _ Hf E).
Qed.
Lemma always_map {X A B} J (Q : A -> B -> Prop) (f : A -> prog X B) l : (forall x, always J (Q x) (f x)) -> always J (Forall2 Q l) (mapP f l).
Proof.
  intros H. induction l as [|x l IH]; [constructor|]. cbn [mapP]. eapply always_bind; [apply H|]. intros a Qa. eapply always_bind; [apply IH|]. intros b Qb. now constructor.
Qed.
Lemma shared_always {X A} (J : X -> Prop) (Q : nat -> A -> Prop) sched : forall w : X * list (prog X A), J (fst w) -> (forall i p, nth_error (snd w) i = Some p -> always J (Q i) p) ->
  forall i p, nth_error (snd (fold_left shared_step sched w)) i = Some p -> always J (Q i) p.
Proof.
  induction sched as [|j sched IH]; intros w Hw H; auto. cbn [fold_left].
  assert (S : J (fst (shared_step w j)) /\ forall i p, nth_error (snd (shared_step w j)) i = Some p -> always J (Q i) p).
  { unfold shared_step. destruct (nth_error (snd w) j) as [[r|f k]|] eqn:N; auto. pose proof (H _ _ N _ Hw) as [Hf Hk]. cbn [fst snd]. split; auto.
    intros i p E. apply nth_put in E as [E|(-> & -> & _)]; auto. }
  destruct S. now apply IH.
Qed.
Definition named (d : ostate) : Prop := Forall (fun kv : string * const => fst (snd kv) = fst kv) d.
Lemma named_get d x k : named d -> dict_get String.eqb x d = Some k -> fst k = x.
Proof.
  intros F. induction F as [|[y c] d E F IH]; cbn; [discriminate|]. destruct (String.eqb x y) eqn:Q; auto. intros H. injection H as <-. apply String.eqb_eq in Q. cbn in E. congruence.
Qed.
Lemma object_always x : always named (fun o => forall t, o = Some t -> exists g, t = TConst x g) (object_prog x).
Proof.
  intros d Hd. split; auto. destruct (dict_get String.eqb x d) eqn:E.
  - intros d' Hd'. split; auto. cbn. intros t. destruct (dict_get String.eqb x d') as [k|] eqn:K; [|discriminate]. intros H. injection H as <-. apply named_get in K; auto. subst x. now eexists.
  - cbn. destruct (mk_const x None) as [t|] eqn:M; cbn; [|exact I]. intros t' H. injection H as <-. apply mk_const_Ok in M as [-> _]. now eexists.
Qed.
Definition bare (s : sexp) : term := TConst (match word s with Some x => x | None => "" end) None.
Definition bare_atom (s : sexp) : form := match s with SList (SAtom (TWord n) :: args) => FPred n (map bare args) | _ => FBin OAnd [] end.
Lemma present_some ts ns : forallb (fun o : option term => match o with Some _ => true | None => false end) ts = true ->
  Forall2 (fun x o => forall t, o = Some t -> exists g, t = TConst x g) ns ts -> list_eqb term_eqb (present ts) (map (fun x => TConst x None) ns) = true.
Proof.
  intros H F. induction F as [|x o ns ts E F IH]; [reflexivity|]. cbn in H. destruct o as [t|]; [|discriminate]. destruct (E t eq_refl) as [g ->]. cbn. rewrite String.eqb_refl. auto.
Qed.
Lemma atom_always s : always named (fun f => form_eqb f (bare_atom s) = true /\ exists n ts, f = FPred n ts) (atom_prog s).
Proof.
  destruct s as [|l]; try exact I. destruct l as [|[t|] args]; try exact I. destruct t; try exact I. cbn [atom_prog bindP].
  destruct (mapO word args) as [ns|] eqn:W; [|exact I]. cbn [of_opt]. eapply always_bind; [apply always_map, object_always|]. intros ts F. cbn [always].
  destruct (pred_some s ts) as [f|] eqn:P; [|exact I]. unfold pred_some in P. apply bind_Ok in P as (p & M & P).
  match type of P with (if ?b then _ else _) = _ => destruct b eqn:B end; [|discriminate]. injection P as <-. apply mk_pred_Ok in M as ->.
  split; [|eauto]. cbn. rewrite String.eqb_refl. cbn. replace (map bare args) with (map (fun x => TConst x None) ns); [now apply present_some|].
  clear - W. revert ns W. induction args as [|a args IH]; cbn; intros ns W; [now injection W as <-|]. unfold bare at 1. destruct (word a) as [x|]; [|discriminate]. destruct (mapO word args) as [xs|]; [|discriminate]. injection W as <-. cbn. now rewrite (IH xs).
Qed.
Definition bare_init (s : sexp) : form :=
  match s with
  | SList (SAtom (TOp _) :: _) => match init_el [] s with Ok f => f | Err _ => FBin OAnd [] end
  | SList (SAtom (TWord w) :: args) => if String.eqb w "not" then match args with [x] => FNot (bare_atom x) | _ => FBin OAnd [] end else bare_atom s
  | _ => FBin OAnd []
  end.
Lemma init_always s : always named (fun f => form_eqb f (bare_init s) = true) (init_prog s).
Proof.
  destruct s as [|l]; try exact I. destruct l as [|[t|] args]; try exact I. destruct t; try exact I; cbn [init_prog].
  - cbn [bare_init]. destruct (String.eqb s "not"); [|eapply always_impl; [|apply atom_always]; now intros a [H _]]. destruct args as [|x [|]]; try exact I.
    eapply always_bind; [apply atom_always|]. now intros a [H _].
  - cbn [always]. destruct (init_el [] (SList (SAtom (TOp s) :: args))) as [f|] eqn:E; [|exact I]. unfold bare_init. rewrite E. apply form_eqb_refl.
Qed.
Definition same_but_objects (p p0 : problem) : Prop :=
  p_name p = p_name p0 /\ p_domain p = p_domain p0 /\ p_domain_name p = p_domain_name p0 /\ p_reqs p = p_reqs p0
  /\ (forall f, memb form_eqb f (p_init p) = memb form_eqb f (p_init p0)) /\ p_goal p = p_goal p0 /\ p_metric p = p_metric p0.
Lemma memb_bare init inits f : Forall2 (fun s f => form_eqb f (bare_init s) = true) inits init -> memb form_eqb f init = memb form_eqb f (map bare_init inits).
Proof.
  intros F. induction F as [|s g inits init E F IH]; [reflexivity|]. unfold memb in *. cbn [existsb map]. rewrite IH. f_equal. destruct (form_eqb f g) eqn:A, (form_eqb f (bare_init s)) eqn:B; auto; exfalso.
  - rewrite (form_eqb_trans _ _ _ A E) in B. discriminate.
  - rewrite form_eqb_sym in E. rewrite (form_eqb_trans _ _ _ B E) in A. discriminate.
Qed.
Lemma rest_always n dn rs l2 os : always named (fun p => forall os' init' goal' m' inits g l3 l4 o5 p0,
    section ":init" l2 = (Some inits, l3) -> Forall2 (fun s f => form_eqb f (bare_init s) = true) inits init' ->
    section ":goal" l3 = (Some [g], l4) -> gd problem_ctx g = Ok goal' -> fst (section ":metric" l4) = o5 -> opt_res metric_spec o5 = Ok m' ->
    mk_problem n None (Some dn) rs os' init' (Some goal') m' = Ok p0 -> same_but_objects p p0)
  (match section ":init" l2 with
  | (Some inits, l3) =>
      bindP (mapP init_prog inits) (fun init =>
      match section ":goal" l3 with
      | (Some [g], l4) =>
          bindP (Done (gd problem_ctx g)) (fun goal =>
          let '(o5, l5) := section ":metric" l4 in
          bindP (Done (opt_res metric_spec o5)) (fun m =>
          match l5 with
          | [] => Done (mk_problem n None (Some dn) rs os init (Some goal) m)
          | _ => Done syntax
          end))
      | _ => Done syntax
      end)
  | (None, _) => Done syntax
  end).
Proof.
  destruct (section ":init" l2) as [[inits|] l3]; [|exact I]. eapply always_bind; [apply always_map, init_always|]. intros init F.
  destruct (section ":goal" l3) as [[[|g [|]]|] l4] eqn:G; try exact I. cbn [bindP]. destruct (gd problem_ctx g) as [goal|] eqn:Hg; [|exact I].
  destruct (section ":metric" l4) as [o5 l5] eqn:Hm. cbn [bindP]. destruct (opt_res metric_spec o5) as [m|] eqn:M; [|exact I]. destruct l5; [|exact I]. cbn [always].
  destruct (mk_problem n None (Some dn) rs os init (Some goal) m) as [p|] eqn:P; [|exact I].
  intros os' init' goal' m' inits' g' l3' l4' o5' p0 S1 F' S2 G' S3 M' P'. injection S1 as <- <-. rewrite G in S2. injection S2 as <- <-. rewrite Hg in G'. injection G' as <-. rewrite Hm in S3. cbn in S3. subst o5'. rewrite M in M'. injection M' as <-.
  unfold mk_problem in P, P'. destruct (parse_name n) as [n'|]; [|discriminate]. cbn [bind] in P, P'. destruct (parse_domain_and_name None (Some dn)) as [dd|]; [|discriminate]. cbn [bind] in P, P'.
  destruct (parse_requirements None rs) as [rs'|]; [|discriminate]. cbn [bind] in P, P'. apply bind_Ok in P as ([] & _ & P). apply bind_Ok in P' as ([] & _ & P').
  apply bind_Ok in P as ([] & _ & P). apply bind_Ok in P' as ([] & _ & P'). injection P as <-. injection P' as <-. repeat (split; [reflexivity|]). split; [|split; reflexivity].
  cbn [p_init]. intros f. rewrite !(memb_dedup _ form_eqb_equiv). now rewrite (memb_bare _ _ f F), (memb_bare _ _ f F').
Qed.
Lemma alone_always_init inits init d : named d -> mapR (init_el d) inits = Ok init -> Forall2 (fun s f => form_eqb f (bare_init s) = true) inits init.
Proof.
  intros N M. eapply (always_alone named _ (mapP init_prog inits)); [apply always_map, init_always|exact N|]. now rewrite (alone_pure_map _ _ _ _ (fun x => alone_init x d)), M.
Qed.
Lemma problem_always n dn l0 : always named (fun p => forall d p0, named d -> problem_rule d n dn l0 = Ok p0 -> same_but_objects p p0) (problem_prog n dn l0).
Proof.
  unfold problem_prog, problem_rule. destruct (section ":requirements" l0) as [o1 l1]. cbn [bindP]. destruct (opt_res require_keys o1) as [rs|e]; [|exact I].
  destruct (section ":objects" l1) as [o2 l2] eqn:S2. eapply (always_bind _ (fun _ => True)).
  - destruct o2 as [l|]; [|exact I]. unfold objects_prog. cbn [bindP]. destruct (objects_section l) as [D|] eqn:O; [|exact I]. apply constants_named in O. intros d Hd. split; [exact O|]. intros d' Hd'. now split.
  - intros os _. eapply always_impl; [|apply rest_always]. cbv beta. intros p H d p0 N K. cbn [bind] in K. apply bind_Ok in K as (os0 & O & K).
    assert (N' : named (match os0 with Some D => D | None => d end)).
    { destruct o2 as [l|]; cbn [opt_res] in O; [apply bind_Ok in O as (D & E & O); injection O as <-; now apply constants_named in E|now injection O as <-]. }
    destruct (section ":init" l2) as [[inits|] l3]; [|discriminate]. apply bind_Ok in K as (init & I1 & K). destruct (section ":goal" l3) as [[[|g [|]]|] l4] eqn:G; try discriminate.
    apply bind_Ok in K as (goal & Hg & K). destruct (section ":metric" l4) as [o5 l5] eqn:Hm. apply bind_Ok in K as (m & M & K). destruct l5; [|discriminate].
    eapply H; [reflexivity|eapply alone_always_init; [exact N'|exact I1]|exact G|exact Hg|rewrite Hm; reflexivity|exact M|exact K].
Qed.
Lemma parse_problem_always s : always named (fun p => forall d p0, named d -> parse_problem_from d s = Ok p0 -> same_but_objects p p0) (parse_problem_prog s).
Proof.
  unfold parse_problem_prog, parse_problem_from, parse_problem_sexp. destruct (read_text s) as [l|]; [|exact I].
  destruct l as [|x l]; try exact I. destruct x as [|x]; try exact I.
  destruct x as [|k1 x]; try exact I. destruct k1 as [k1|]; try exact I. destruct k1; try exact I.
  destruct x as [|x1 x]; try exact I. destruct x1 as [|x1]; try exact I.
  destruct x1 as [|k2 x1]; try exact I. destruct k2 as [k2|]; try exact I. destruct k2; try exact I.
  destruct x1 as [|n x1]; try exact I. destruct n as [n|]; try exact I. destruct n; try exact I.
  destruct x1; try exact I. destruct x as [|x2 secs]; try exact I. destruct x2 as [|x2]; try exact I.
  destruct x2 as [|k3 x2]; try exact I. destruct x2 as [|dn x2]; try exact I. destruct dn as [dn|]; try exact I. destruct dn; try exact I. destruct x2; try exact I. destruct l; try exact I.
  match goal with |- context [if ?b then _ else _] => destruct b end; [apply problem_always|exact I].
Qed.

(** ** threads that all write the same value *)
Fixpoint keeps {X A} (D : X) (p : prog X A) : Prop := match p with Done _ => True | Step f k => f D = D /\ keeps D (k D) end.
Lemma keeps_bind {X A B} (D : X) (p : prog X A) (k : A -> prog X B) : keeps D p -> (forall a, keeps D (k a)) -> keeps D (bindP p k).
Proof. intros H K. induction p as [[a|e]|f k' IH]; cbn in *; auto. destruct H. auto. Qed.
Lemma keeps_map {X A B} (D : X) (f : A -> prog X B) l : (forall x, keeps D (f x)) -> keeps D (mapP f l).
Proof. intros H. induction l; [exact I|]. cbn [mapP]. apply keeps_bind; auto. intros. apply keeps_bind; auto. intros; exact I. Qed.
Lemma keeps_init D s : keeps D (init_prog s).
Proof.
  assert (A : forall s, keeps D (atom_prog s)).
  { clear. intros s. destruct s as [|l]; try exact I. destruct l as [|[t|] args]; try exact I. destruct t; try exact I. cbn [atom_prog bindP]. destruct (of_opt (mapO word args)); [|exact I].
    apply keeps_bind; [|intros; exact I]. apply keeps_map. intros x. cbn. split; auto. destruct (dict_get String.eqb x D); cbn; auto. }
  destruct s as [|l]; try exact I. destruct l as [|[t|] args]; try exact I. destruct t; try exact I. cbn [init_prog]. destruct (String.eqb s "not"); auto.
  destruct args as [|x [|]]; try exact I. apply keeps_bind; auto. intros; exact I.
Qed.
Definition ready {X A} (D : X) (st : X) (p : prog X A) (r : res A) : Prop :=
  p = Done r \/ (exists k, p = Step (fun _ => D) (fun _ => k) /\ keeps D k /\ snd (alone k D) = r) \/ (st = D /\ keeps D p /\ snd (alone p D) = r).
Lemma shared_ready {X A} (D : X) (R : nat -> res A) sched : forall w : X * list (prog X A), (forall i p, nth_error (snd w) i = Some p -> ready D (fst w) p (R i)) ->
  forall i p, nth_error (snd (fold_left shared_step sched w)) i = Some p -> ready D (fst (fold_left shared_step sched w)) p (R i).
Proof.
  induction sched as [|j sched IH]; intros w H; auto. cbn [fold_left]. apply IH. intros i p E. unfold shared_step in *.
  destruct (nth_error (snd w) j) as [[r|f k]|] eqn:N; auto. cbn [fst snd] in *. pose proof (H _ _ N) as [C|C]; [discriminate|].
  assert (S : f (fst w) = D /\ keeps D (k (fst w)) /\ snd (alone (k (fst w)) D) = R j).
  { destruct C as [(k' & C & K & Q)|(<- & [F K] & Q)]; [injection C as -> ->; auto|]. split; auto. split; auto. cbn in Q. now rewrite F in Q. }
  destruct S as (F & K & Q). rewrite F. apply nth_put in E as [E|(-> & -> & _)].
  - destruct (H _ _ E) as [C'|[C'|(E' & C')]]; [now left|now right; left|right; right; auto].
  - right. right. auto.
Qed.
Lemma problem_ready n dn rs os rest D st : objects_section os = Ok D ->
  ready D st (problem_prog n dn (opt_section ":requirements" rs ++ section_sx ":objects" os :: rest)) (problem_rule [] n dn (opt_section ":requirements" rs ++ section_sx ":objects" os :: rest)).
Proof.
  intros O. rewrite <- alone_problem. set (l0 := opt_section ":requirements" rs ++ section_sx ":objects" os :: rest).
  assert (S1 : section ":requirements" l0 = (rs, section_sx ":objects" os :: rest)) by (unfold l0; destruct rs; reflexivity).
  unfold problem_prog. rewrite S1. cbn [bindP]. destruct (opt_res require_keys rs) as [q|]; [|now left].
  change (section ":objects" (section_sx ":objects" os :: rest)) with (Some os, rest). cbv iota beta. unfold objects_prog. cbn [bindP]. rewrite O. cbn [bindP].
  right. left. eexists. split; [reflexivity|]. split; [|reflexivity]. cbn [keeps]. split; auto.
  destruct (section ":init" rest) as [[inits|] l3]; [|exact I]. apply keeps_bind; [apply keeps_map, keeps_init|]. intros init. destruct (section ":goal" l3) as [[[|g [|]]|] l4]; try exact I.
  cbn [bindP]. destruct (gd problem_ctx g); [|exact I]. destruct (section ":metric" l4) as [o5 l5]. cbn [bindP]. destruct (opt_res metric_spec o5); [|exact I]. destruct l5; exact I.
Qed.
Lemma problem_fails n dn rs os rest e : objects_section os = Err e -> exists e', problem_prog n dn (opt_section ":requirements" rs ++ section_sx ":objects" os :: rest) = Done (Err e').
Proof.
  intros O. set (l0 := opt_section ":requirements" rs ++ section_sx ":objects" os :: rest).
  assert (S1 : section ":requirements" l0 = (rs, section_sx ":objects" os :: rest)) by (unfold l0; destruct rs; reflexivity).
  unfold problem_prog. rewrite S1. cbn [bindP]. destruct (opt_res require_keys rs) as [q|]; [|eauto].
  change (section ":objects" (section_sx ":objects" os :: rest)) with (Some os, rest). cbv iota beta. unfold objects_prog. cbn [bindP]. rewrite O. cbn [bindP]. eauto.
Qed.
Lemma same_objects_ready os s n dn rs rest st : problem_text s n dn (opt_section ":requirements" rs ++ section_sx ":objects" os :: rest) ->
  ready (match objects_section os with Ok D => D | Err _ => [] end) st (parse_problem_prog s) (parse_problem s).
Proof.
  intros T. unfold parse_problem. rewrite <- alone_parse_problem. unfold problem_text, name_sx in T. unfold parse_problem_prog. rewrite T. cbn [String.eqb Ascii.eqb Bool.eqb andb is_kw].
  destruct (objects_section os) as [D|e] eqn:O.
  - rewrite alone_problem. now apply problem_ready.
  - destruct (problem_fails n dn rs os rest e O) as [e' ->]. now left.
Qed.

(** ** calls one after another *)
Lemma put_put {A} i (x y : A) l : put i x (put i y l) = put i x l.
Proof. revert i. induction l as [|z l IH]; intros [|i]; cbn; auto. now rewrite IH. Qed.
Lemma put_same {A} i (x : A) l : nth_error l i = Some x -> put i x l = l.
Proof. revert i. induction l as [|z l IH]; intros [|i] H; cbn in *; try discriminate; [now injection H as ->|]. now rewrite IH. Qed.
Lemma block {X A} i n : forall (st : X) (ps : list (prog X A)) p, nth_error ps i = Some p -> bounded n p ->
  fold_left shared_step (repeat i n) (st, ps) = (fst (alone p st), put i (Done (snd (alone p st))) ps).
Proof.
  induction n as [|n IH]; intros st ps p H B.
  - destruct p; [|destruct B]. cbn. now rewrite put_same.
  - cbn [repeat fold_left]. unfold shared_step at 2. cbn [fst snd]. rewrite H. destruct p as [r|f k].
    + rewrite (IH st ps (Done r)); [reflexivity|exact H|apply bounded_Done].
    + rewrite (IH (f st) (put i (k st) ps) (k st)); [|now eapply nth_put_same; eauto|apply B]. cbn [alone]. now rewrite put_put.
Qed.
Lemma no_thread {X A} i n (w : X * list (prog X A)) : nth_error (snd w) i = None -> fold_left shared_step (repeat i n) w = w.
Proof. intros H. induction n as [|n IH]; auto. cbn [repeat fold_left]. unfold shared_step at 2. now rewrite H. Qed.
Definition locked (n : nat) (order : list nat) : list nat := flat_map (fun i => repeat i n) order.
Definition texts_of (texts : list string) (order : list nat) : list string := flat_map (fun i => match nth_error texts i with Some s => [s] | None => [] end) order.
Lemma bounded_all texts : exists n, forall s, In s texts -> bounded n (parse_prog s).
Proof.
  induction texts as [|t texts [n H]]; [exists 0; now intros|]. destruct (bounded_parse t) as [m B]. exists (n + m). intros s [<-|Hs].
  - eapply bounded_le; [apply PeanoNat.Nat.le_add_l|exact B].
  - eapply bounded_le; [apply PeanoNat.Nat.le_add_r|auto].
Qed.
Lemma fold_locked texts n order : (forall s, In s texts -> bounded n (parse_prog s)) -> NoDup order -> forall st ps,
  (forall i, In i order -> nth_error ps i = option_map parse_prog (nth_error texts i)) ->
  fst (fold_left shared_step (locked n order) (st, ps)) = fold_left (fun st s => fst (parse_domain s st)) (texts_of texts order) st
  /\ (forall i, ~ In i order -> nth_error (snd (fold_left shared_step (locked n order) (st, ps))) i = nth_error ps i)
  /\ (forall pre i post s, order = pre ++ i :: post -> nth_error texts i = Some s ->
      nth_error (snd (fold_left shared_step (locked n order) (st, ps))) i = Some (Done (snd (parse_domain s (fold_left (fun st s => fst (parse_domain s st)) (texts_of texts pre) st))))).
Proof.
  intros B N. induction N as [|j order Nj N IH]; intros st ps H.
  - repeat split; auto. intros [|? ?] i post s E; discriminate.
  - cbn [locked texts_of flat_map]. fold (locked n order) (texts_of texts order). rewrite !fold_left_app.
    pose proof (H j (or_introl eq_refl)) as Hj. destruct (nth_error texts j) as [t|] eqn:T; cbn [option_map] in Hj.
    + rewrite (block j n st ps _ Hj (B _ (nth_error_In _ _ T))), alone_parse. cbn [fold_left].
      destruct (IH (fst (parse_domain t st)) (put j (Done (snd (parse_domain t st))) ps)) as (I1 & I2 & I3).
      { intros i Hi. rewrite nth_put_other; [apply H; now right|]. intros ->. contradiction. }
      split; [exact I1|]. split.
      * intros i Hi. rewrite I2, nth_put_other; auto; [intros ->; apply Hi; now left|intros Q; apply Hi; now right].
      * intros [|a pre] i post s E S; injection E as -> E.
        -- rewrite T in S. injection S as ->. rewrite I2 by exact Nj. cbn. now apply (nth_put_same _ _ _ _ Hj).
        -- rewrite (I3 pre i post s E S). cbn [texts_of flat_map]. rewrite T. reflexivity.
    + rewrite (no_thread j n (st, ps) Hj). cbn [fold_left]. destruct (IH st ps) as (I1 & I2 & I3); [intros i Hi; apply H; now right|].
      split; [exact I1|]. split; [intros i Hi; apply I2; intros Q; apply Hi; now right|].
      intros [|a pre] i post s E S; injection E as -> E; [congruence|]. rewrite (I3 pre i post s E S). cbn [texts_of flat_map]. now rewrite T.
Qed.
