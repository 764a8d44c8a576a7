(** Property theorems: names, equality, hashing, And/Or, arithmetic, orders, requirements.
    Each proof is one [exact]; the proofs are in the *_facts files. *)
From Coq Require Import String Ascii List Bool ZArith QArith Permutation Lia.
From Verif Require Import Py Names Reqs Logic Validation Core Sem Built Spec_Reqs
  Py_facts Logic_facts Ops_facts Built_facts Names_facts Order_facts Strict_facts CoreEq_facts.
Import ListNotations.
Open Scope string_scope.
Open Scope list_scope.
Close Scope Q_scope.

(** * C01 *)
Theorem C01_names : forall s t,
  (parse_name s = Ok t <-> t = s /\ identifier s /\ ~ In s reserved_words) /\
  (parse_type s = Ok t <-> t = s /\ identifier s /\ (In s reserved_words -> s = "object")) /\
  (parse_function s = Ok t <-> t = s /\ identifier s /\ (In s reserved_words -> s = "total-cost")).
Proof. exact (fun s t => conj (parse_name_Ok' s t) (conj (parse_type_Ok' s t) (parse_function_Ok' s t))). Qed.
Print Assumptions C01_names.

(** the exception class of a rejected name *)
Theorem C01_errors : forall s e,
  parse_name s = Err e <->
  (e = PDDLValidationError /\ (In s reserved_words \/ In s reserved_others) /\ ~ In s []) \/
  (e = ValueError /\ ~ identifier s /\ ~ ((In s reserved_words \/ In s reserved_others) /\ ~ In s [])).
Proof. exact (parse_ignoring_Err []). Qed.
Print Assumptions C01_errors.
Theorem C01_errors_type : forall s e,
  parse_type s = Err e <->
  (e = PDDLValidationError /\ (In s reserved_words \/ In s reserved_others) /\ ~ In s ["object"]) \/
  (e = ValueError /\ ~ identifier s /\ ~ ((In s reserved_words \/ In s reserved_others) /\ ~ In s ["object"])).
Proof. exact (parse_ignoring_Err ["object"]). Qed.
Print Assumptions C01_errors_type.
Theorem C01_errors_function : forall s e,
  parse_function s = Err e <->
  (e = PDDLValidationError /\ (In s reserved_words \/ In s reserved_others) /\ ~ In s ["total-cost"]) \/
  (e = ValueError /\ ~ identifier s /\ ~ ((In s reserved_words \/ In s reserved_others) /\ ~ In s ["total-cost"])).
Proof. exact (parse_ignoring_Err ["total-cost"]). Qed.
Print Assumptions C01_errors_function.

(** collections of names *)
Theorem C01_collections : forall l l',
  (to_names l = Ok l' <-> l' = l /\ Forall (fun s => identifier s /\ ~ In s reserved_words) l) /\
  (to_type l = Ok l' <-> l' = l /\ Forall (fun s => identifier s /\ (In s reserved_words -> s = "object")) l).
Proof. exact (fun l l' => conj (to_names_Ok l l') (to_type_Ok l l')). Qed.
Print Assumptions C01_collections.

Example C01_ex :
  parse_name "block-A_1" = Ok "block-A_1" /\ parse_name "object" = Err PDDLValidationError
  /\ parse_type "object" = Ok "object" /\ parse_name "1a" = Err ValueError
  /\ parse_function "total-cost" = Ok "total-cost".
Proof. vm_compute. auto. Qed.

(** * C02 *)
Definition equivalence_on {A} (ok : A -> Prop) (eqb : A -> A -> bool) : Prop :=
  (forall a, ok a -> eqb a a = true) /\
  (forall a b, ok a -> ok b -> eqb a b = true -> eqb b a = true) /\
  (forall a b c, ok a -> ok b -> ok c -> eqb a b = true -> eqb b c = true -> eqb a c = true).

Lemma equiv_on {A} (eqb : A -> A -> bool) : is_equiv eqb -> equivalence_on (fun _ => True) eqb.
Proof.
  intros E. repeat split.
  - intros. apply (eqv_refl _ E).
  - intros. now rewrite (eqv_sym _ E).
  - intros. eapply (eqv_trans _ E); eauto.
Qed.

Theorem C02_terms : equivalence_on (fun _ : term => True) term_eqb.
Proof. exact (equiv_on _ term_eqb_equiv). Qed.
Print Assumptions C02_terms.
Theorem C02_formulas : equivalence_on (fun _ : form => True) form_eqb.
Proof. exact (equiv_on _ form_eqb_equiv). Qed.
Print Assumptions C02_formulas.
Theorem C02_derived : equivalence_on (fun _ : derived => True) derived_eqb.
Proof. exact (equiv_on _ derived_eqb_equiv). Qed.
Print Assumptions C02_derived.
Theorem C02_metrics : equivalence_on (fun _ : metric => True) metric_eqb.
Proof. exact (equiv_on _ metric_eqb_equiv). Qed.
Print Assumptions C02_metrics.
Theorem C02_actions : equivalence_on (fun _ : action => True) action_eqb.
Proof. exact (equiv_on _ action_eqb_equiv). Qed.
Print Assumptions C02_actions.
(** a domain's [types] and [functions] are dicts, so they have no repeated key *)
Theorem C02_domains : equivalence_on dicts_ok domain_eqb.
Proof. exact (conj domain_eqb_refl (conj domain_eqb_sym domain_eqb_trans)). Qed.
Print Assumptions C02_domains.
Theorem C02_domains_reachable : forall n rs ty cs ps dps fs acts d,
  mk_domain n rs ty cs ps dps fs acts = Ok d -> NoDupE atom_eqb (map fst fs) -> dicts_ok d.
Proof. exact mk_domain_dicts. Qed.
Theorem C02_problems : equivalence_on problem_dicts_ok problem_eqb.
Proof. exact (conj problem_eqb_refl (conj problem_eqb_sym problem_eqb_trans)). Qed.
Print Assumptions C02_problems.
Theorem C02_plans : equivalence_on (fun _ : plan => True) plan_eqb.
Proof. exact (equiv_on _ plan_eqb_equiv). Qed.
Print Assumptions C02_plans.

(** == is not identity: equal formulas that are different values *)
Example C02_ex :
  form_eqb (FQuant QForall [mkVar "x" ["a"; "b"]; mkVar "y" []] (FPred "p" [TConst "c" (Some "t")]))
           (FQuant QForall [mkVar "y" []; mkVar "x" ["b"; "a"]] (FPred "p" [TConst "c" None])) = true.
Proof. reflexivity. Qed.

(** * C03 *)
Theorem C03_terms : forall (H : hashes) a b, term_eqb a b = true -> term_hash H a = term_hash H b.
Proof. exact term_hash_eq. Qed.
Print Assumptions C03_terms.
Theorem C03_formulas : forall (H : hashes) f g,
  built f -> built g -> form_eqb f g = true -> form_hash H f = form_hash H g.
Proof. exact (fun H f g bf bg => form_hash_eq H f g (built_sets_ok f bf) (built_sets_ok g bg)). Qed.
Print Assumptions C03_formulas.
Definition opt_built (o : option form) : Prop := match o with Some f => built f | None => True end.
Lemma opt_built_sets o : opt_built o -> opt_sets_ok o.
Proof. destruct o; simpl; auto. apply built_sets_ok. Qed.
Theorem C03_actions : forall (H : hashes) a b,
  opt_built (a_pre a) -> opt_built (a_eff a) -> opt_built (a_pre b) -> opt_built (a_eff b) ->
  action_eqb a b = true -> action_hash H a = action_hash H b.
Proof.
  exact (fun H a b h1 h2 h3 h4 => action_hash_eq H a b (opt_built_sets _ h1) (opt_built_sets _ h2)
                                    (opt_built_sets _ h3) (opt_built_sets _ h4)).
Qed.
Print Assumptions C03_actions.
Theorem C03_derived : forall (H : hashes) a b, built (dp_cond a) -> built (dp_cond b) ->
  derived_eqb a b = true -> derived_hash H a = derived_hash H b.
Proof. exact (fun H a b h1 h2 => derived_hash_eq H a b (built_sets_ok _ h1) (built_sets_ok _ h2)). Qed.
Print Assumptions C03_derived.
Theorem C03_metrics : forall (H : hashes) a b, built (me_expr a) -> built (me_expr b) ->
  metric_eqb a b = true -> metric_hash H a = metric_hash H b.
Proof. exact (fun H a b h1 h2 => metric_hash_eq H a b (built_sets_ok _ h1) (built_sets_ok _ h2)). Qed.
Print Assumptions C03_metrics.

(** hash functions with the required laws exist and are not constant *)
Example C03_ex : exists H : hashes,
  form_hash H (FPred "p" []) <> form_hash H (FPred "q" []).
Proof.
  unshelve eexists.
  - refine {| h_str := fun s => Z.of_nat (fold_left (fun n c => 2 * n + Ascii.nat_of_ascii c) (list_ascii_of_string s) 0);
              h_num := fun q => 0%Z; h_cls := fun _ => 1%Z; h_none := 2%Z;
              h_tuple := fold_right Z.add 0%Z; h_set := fold_right Z.add 0%Z |}.
    + reflexivity.
    + induction 1; simpl; Lia.lia.
  - vm_compute. discriminate.
Qed.
Example C03_ex_built : built (mk_quant QForall [mkVar "x" []; mkVar "x" []; mkVar "y" ["t"]] (FPred "p" [])).
Proof. apply B_quant. now apply (B_pred "p" []). Qed.

(** * C05 *)
Theorem C05_and : forall (I : interp) (e : env I) ops,
  holds I e (mk_and ops) <-> Forall (holds I e) ops.
Proof. exact holds_mk_and. Qed.
Print Assumptions C05_and.
Theorem C05_or : forall (I : interp) (e : env I) ops,
  holds I e (mk_or ops) <-> Exists (holds I e) ops.
Proof. exact holds_mk_or. Qed.
Print Assumptions C05_or.
(** the same for any notion of truth that respects == and reads And / Or nodes as conjunction /
    disjunction (so the result does not hinge on the choices made in Sem.v) *)
Theorem C05_and_any : forall V : form -> Prop,
  (forall f g, form_eqb f g = true -> V f <-> V g) ->
  (forall ops, V (FBin OAnd ops) <-> Forall V ops) ->
  forall ops, V (mk_and ops) <-> Forall V ops.
Proof. exact mk_and_V. Qed.
Print Assumptions C05_and_any.
Theorem C05_or_any : forall V : form -> Prop,
  (forall f g, form_eqb f g = true -> V f <-> V g) ->
  (forall ops, V (FBin OOr ops) <-> Exists V ops) ->
  forall ops, V (mk_or ops) <-> Exists V ops.
Proof. exact mk_or_V. Qed.
Print Assumptions C05_or_any.
(** the constructor does rewrite its operands *)
Example C05_ex : let p := FPred "p" [] in let q := FPred "q" [] in
  mk_and [p; FBin OAnd [q; FBin OAnd [p; q]]; q] = FBin OAnd [p; q] /\ mk_and [p; p] = p
  /\ mk_or [] = FBin OOr [].
Proof. vm_compute. auto. Qed.

(** * C06 *)
(** [nf]: no And directly in an And, no Or directly in an Or, no two equal operands, never
    exactly one operand, at every depth (Built_facts.nf) *)
Theorem C06_normal_form : forall f, built f -> nf f.
Proof. exact built_nf. Qed.
Print Assumptions C06_normal_form.
Lemma built_node_id : forall k ops, (k = OAnd \/ k = OOr) -> built (FBin k ops) -> mk_bin k ops = FBin k ops.
Proof.
  intros k ops Hk B. apply built_nf in B. simpl in B. destruct B as [_ B].
  apply mk_bin_node_id. destruct Hk; subst; exact B.
Qed.
Theorem C06_idempotent : forall k ops, (k = OAnd \/ k = OOr) ->
  built (FBin k ops) -> mk_bin k ops = FBin k ops.
Proof. exact built_node_id. Qed.
Print Assumptions C06_idempotent.
(** grounding stays within the constructor-built formulas *)
Theorem C06_instantiate : forall m f g, built f -> instantiate m f = Ok g -> nf g.
Proof. exact (fun m f g b h => built_nf g (instantiate_built m f g b h)). Qed.
Print Assumptions C06_instantiate.
Example C06_ex : let p := FPred "p" [] in let q := FPred "q" [] in
  built (mk_not (mk_and [p; mk_or [q; mk_or [p; q]]; p]))
  /\ mk_not (mk_and [p; mk_or [q; mk_or [p; q]]; p]) = FNot (FBin OAnd [p; FBin OOr [q; p]]).
Proof.
  split; [|reflexivity].
  assert (built (FPred "p" [])) by now apply (B_pred "p" []).
  assert (built (FPred "q" [])) by now apply (B_pred "q" []).
  apply B_not, (B_bin OAnd). apply Forall_cons; auto. apply Forall_cons; auto.
  apply (B_bin OOr). apply Forall_cons; auto. apply Forall_cons; auto.
  apply (B_bin OOr). auto.
Qed.

(** * C07: false of the code *)
Definition ex_interp : interp :=
  {| obj := unit; i_const := fun _ => tt; i_pred := fun _ _ => False;
     i_func := fun n _ => if String.eqb n "x" then 1%Q else if String.eqb n "y" then 2%Q else 3%Q;
     i_type := fun _ _ => False |}.
Definition ex_env : env ex_interp := fun _ => tt.

(** Plus(x, x) is x;  Minus(x, Minus(y, z)) is x - y - z *)
Theorem C07_refuted :
  (exists (I : interp) (e : env I) ops,
     Forall built ops /\
     ~ (value I e (mk_binfun BPlus ops) == fold_right (fun g q => value I e g + q) 0 ops)%Q) /\
  (exists (I : interp) (e : env I) a b,
     built a /\ built b /\
     ~ (value I e (mk_binfun BMinus [a; b]) == value I e a - value I e b)%Q).
Proof.
  assert (B : forall n, parse_function n = Ok n -> built (FNumFun n [])).
  { intros n H. apply (B_numfun n []). unfold mk_numfun. now rewrite H. }
  split.
  - exists ex_interp, ex_env, [FNumFun "x" []; FNumFun "x" []]. split.
    + repeat constructor; now apply B.
    + vm_compute. discriminate.
  - exists ex_interp, ex_env, (FNumFun "x" []), (mk_binfun BMinus [FNumFun "y" []; FNumFun "z" []]).
    split; [now apply B|]. split.
    + apply B_binfun. repeat constructor; now apply B.
    + vm_compute. discriminate.
Qed.
Print Assumptions C07_refuted.

(** What holds: sums and products whose operands (after flattening nested sums / products) are
    pairwise different; differences and quotients of pairwise different operands none of which
    is itself a difference / quotient.  Missing: repeated operands, nested [-] and [/]. *)
Theorem C07_sum_partial : forall (I : interp) (e : env I) ops,
  NoDupE form_eqb (flat_map (leaves (CFun BPlus)) ops) ->
  (value I e (mk_binfun BPlus ops) == fold_right (fun g q => value I e g + q) 0 ops)%Q.
Proof. exact mk_plus_value. Qed.
Print Assumptions C07_sum_partial.
Theorem C07_product_partial : forall (I : interp) (e : env I) ops,
  NoDupE form_eqb (flat_map (leaves (CFun BTimes)) ops) ->
  (value I e (mk_binfun BTimes ops) == fold_right (fun g q => value I e g * q) 1 ops)%Q.
Proof. exact mk_times_value. Qed.
Print Assumptions C07_product_partial.
Lemma minus_value : forall (I : interp) (e : env I) x y,
  is_fnode BMinus x = false -> is_fnode BMinus y = false -> form_eqb x y = false ->
  value I e (mk_binfun BMinus [x; y]) = (value I e x - value I e y)%Q.
Proof.
  intros I e x y Hx Hy E. rewrite mk_binfun_id; auto.
  constructor; [simpl; now rewrite E|]. repeat constructor.
Qed.
Lemma divide_value : forall (I : interp) (e : env I) x y,
  is_fnode BDivide x = false -> is_fnode BDivide y = false -> form_eqb x y = false ->
  value I e (mk_binfun BDivide [x; y]) = (value I e x / value I e y)%Q.
Proof.
  intros I e x y Hx Hy E. rewrite mk_binfun_id; auto.
  constructor; [simpl; now rewrite E|]. repeat constructor.
Qed.
Theorem C07_difference_partial : forall (I : interp) (e : env I) x y,
  is_fnode BMinus x = false -> is_fnode BMinus y = false -> form_eqb x y = false ->
  value I e (mk_binfun BMinus [x; y]) = (value I e x - value I e y)%Q.
Proof. exact minus_value. Qed.
Print Assumptions C07_difference_partial.
Theorem C07_quotient_partial : forall (I : interp) (e : env I) x y,
  is_fnode BDivide x = false -> is_fnode BDivide y = false -> form_eqb x y = false ->
  value I e (mk_binfun BDivide [x; y]) = (value I e x / value I e y)%Q.
Proof. exact divide_value. Qed.
Print Assumptions C07_quotient_partial.
Example C07_ex :
  NoDupE form_eqb (flat_map (leaves (CFun BPlus))
    [FNumFun "x" []; FBinFun BPlus [FNumFun "y" []; FNumVal (NInt 2)]; FBinFun BTimes [FNumFun "x" []; FNumFun "y" []]]).
Proof. repeat constructor. Qed.

(** * C08 *)
Lemma sem_not : forall (I : interp) (e : env I) f, holds I e (op_invert f) <-> ~ holds I e f.
Proof. reflexivity. Qed.
Lemma sem_and : forall (I : interp) (e : env I) f g,
  holds I e (op_and f g) <-> holds I e f /\ holds I e g.
Proof. intros. unfold op_and. rewrite holds_mk_and, !Forall_cons_iff. intuition. Qed.
Lemma sem_or : forall (I : interp) (e : env I) f g,
  holds I e (op_or f g) <-> holds I e f \/ holds I e g.
Proof. intros. unfold op_or. rewrite holds_mk_or, !Exists_cons, Exists_nil. tauto. Qed.
Lemma sem_imply : forall (I : interp) (e : env I) f g,
  (holds I e (op_rshift f g) <-> ~ holds I e f \/ holds I e g) /\
  (holds I e f \/ ~ holds I e f -> (holds I e (op_rshift f g) <-> (holds I e f -> holds I e g))).
Proof.
  intros. unfold op_rshift, mk_not. rewrite holds_mk_or, !Exists_cons, Exists_nil. simpl. tauto.
Qed.
Theorem C08_invert : forall (I : interp) (e : env I) f, holds I e (op_invert f) <-> ~ holds I e f.
Proof. exact sem_not. Qed.
Print Assumptions C08_invert.
Theorem C08_and : forall (I : interp) (e : env I) f g,
  holds I e (op_and f g) <-> holds I e f /\ holds I e g.
Proof. exact sem_and. Qed.
Print Assumptions C08_and.
Theorem C08_or : forall (I : interp) (e : env I) f g,
  holds I e (op_or f g) <-> holds I e f \/ holds I e g.
Proof. exact sem_or. Qed.
Print Assumptions C08_or.
(** implication; the second form assumes f is true or false (Coq's logic does not decide it) *)
Theorem C08_rshift : forall (I : interp) (e : env I) f g,
  (holds I e (op_rshift f g) <-> ~ holds I e f \/ holds I e g) /\
  (holds I e f \/ ~ holds I e f -> (holds I e (op_rshift f g) <-> (holds I e f -> holds I e g))).
Proof. exact sem_imply. Qed.
Print Assumptions C08_rshift.
Example C08_ex : op_rshift (FPred "p" []) (FPred "q" []) = FBin OOr [FNot (FPred "p" []); FPred "q" []].
Proof. reflexivity. Qed.

(** * C15 *)
(** [name_consistent ts]: any two terms of [ts] with the same name have the same set of tags *)
Theorem C15_predicate : forall n ts f,
  mk_pred n ts = Ok f <-> f = FPred n ts /\ legal_name n /\ name_consistent ts.
Proof. exact mk_pred_iff. Qed.
Print Assumptions C15_predicate.
Theorem C15_equality : forall l r f,
  mk_eq l r = Ok f <-> f = FEq l r /\ name_consistent [l; r].
Proof. exact mk_eq_iff. Qed.
Print Assumptions C15_equality.
Lemma consistency_errors : forall ts, ~ name_consistent ts -> 
  mk_pred "p" ts = Err ValueError.
Proof.
  intros ts H. unfold mk_pred. simpl. unfold check_terms_consistency.
  destruct (consistency_from_err ts []) as [E|E].
  - exfalso. apply H. now apply check_terms_consistency_Ok.
  - cbn [bind parse_name check_not_a_keyword]. 
    replace (parse_name "p") with (Ok "p") by reflexivity. simpl. now rewrite E.
Qed.
Theorem C15_rejected : forall ts, ~ name_consistent ts -> mk_pred "p" ts = Err ValueError.
Proof. exact consistency_errors. Qed.
Print Assumptions C15_rejected.
Example C15_ex :
  is_ok (mk_pred "p" [TVar (mkVar "x" ["a"; "b"]); TConst "c" None; TVar (mkVar "x" ["b"; "a"])]) = true
  /\ mk_pred "p" [TVar (mkVar "x" ["a"]); TVar (mkVar "x" [])] = Err ValueError.
Proof. vm_compute. auto. Qed.

(** * C21 *)
Theorem C21_exact : forall rs s,
  In s (extend_reqs rs) <-> In s rs \/ exists r, In r rs /\ In s (implied_by r).
Proof. exact extend_exact. Qed.
Print Assumptions C21_exact.
Lemma extend_mono : forall rs rs', incl rs rs' -> incl (extend_reqs rs) (extend_reqs rs').
Proof.
  intros rs rs' H s. rewrite !extend_exact. intros [Hs|(r & H1 & H2)]; eauto.
Qed.
Theorem C21_monotone : forall rs rs', incl rs rs' -> incl (extend_reqs rs) (extend_reqs rs').
Proof. exact extend_mono. Qed.
Print Assumptions C21_monotone.
Lemma extend_idem : forall rs s, In s (extend_reqs (extend_reqs rs)) <-> In s (extend_reqs rs).
Proof.
  intros rs s. rewrite (extend_exact (extend_reqs rs)). split; [|auto].
  intros [H|(r & H1 & H2)]; auto. apply extend_exact in H1 as [H1|(q & Hq & Hr)].
  - apply extend_exact. eauto.
  - exfalso. destruct q; simpl in Hr; repeat destruct Hr as [<-|Hr]; simpl in H2; tauto.
Qed.
Theorem C21_idempotent : forall rs s,
  In s (extend_reqs (extend_reqs rs)) <-> In s (extend_reqs rs).
Proof. exact extend_idem. Qed.
Print Assumptions C21_idempotent.
Example C21_ex : In TYPING (extend_reqs [ADL; FLUENTS]) /\ ~ In DERIVED_PREDICATES (extend_reqs [ADL; FLUENTS]).
Proof. vm_compute. intuition discriminate. Qed.

(** * C22: false of the code, [<] is reflexive and [>=] is irreflexive *)
Theorem C22_refuted : forall r, req_lt r r = true /\ req_ge r r = false.
Proof. intros []; vm_compute; auto. Qed.
Print Assumptions C22_refuted.
(** what holds: [<=] is a total order and [>] a strict total order.
    Missing: the same for [<] and [>=]. *)
Lemma req_orders :
  (forall a, req_le a a = true) /\
  (forall a b, req_le a b = true -> req_le b a = true -> a = b) /\
  (forall a b c, req_le a b = true -> req_le b c = true -> req_le a c = true) /\
  (forall a b, req_le a b = true \/ req_le b a = true) /\
  (forall a, req_gt a a = false) /\
  (forall a b c, req_gt a b = true -> req_gt b c = true -> req_gt a c = true) /\
  (forall a b, a = b \/ req_gt a b = true \/ req_gt b a = true).
Proof.
  repeat split; intros *; rewrite ?req_le_lt, ?req_lt_spec, ?req_gt_spec; auto.
  - intros [->|H]; auto. intros [->|H']; auto.
    rewrite (str_lt_antisym _ _ H) in H'. discriminate.
  - intros [->|H]; auto. intros [->|H']; auto. right. eapply str_lt_trans; eauto.
  - destruct (str_lt_total (req_value a) (req_value b)) as [H|[H|H]]; auto.
    apply req_value_inj in H. auto.
  - destruct (req_gt a a) eqn:G; auto. apply req_gt_spec in G. now rewrite str_lt_irrefl in G.
  - intros H1 H2. eapply str_lt_trans; eauto.
  - destruct (str_lt_total (req_value a) (req_value b)) as [H|[H|H]]; auto.
    apply req_value_inj in H. auto.
Qed.
Theorem C22_partial :
  (forall a, req_le a a = true) /\
  (forall a b, req_le a b = true -> req_le b a = true -> a = b) /\
  (forall a b c, req_le a b = true -> req_le b c = true -> req_le a c = true) /\
  (forall a b, req_le a b = true \/ req_le b a = true) /\
  (forall a, req_gt a a = false) /\
  (forall a b c, req_gt a b = true -> req_gt b c = true -> req_gt a c = true) /\
  (forall a b, a = b \/ req_gt a b = true \/ req_gt b a = true).
Proof. exact req_orders. Qed.
Print Assumptions C22_partial.

(** * C23 *)
(** false in general: constants are compared by name for ==, but by name and type for < *)
Theorem C23_refuted : exists a b, term_eqb a b = true /\ term_lt a b = true /\
  mk_const "c" (Some "t1") = Ok a /\ mk_const "c" (Some "t2") = Ok b.
Proof. exists (TConst "c" (Some "t1")), (TConst "c" (Some "t2")). vm_compute. auto. Qed.
Print Assumptions C23_refuted.
(** derived predicates: d < d can be true, and comparing can raise *)
Theorem C23_derived_refuted :
  (exists d, derived_lt d d = Ok true) /\ (exists d, derived_lt d d = Err TypeError).
Proof.
  split.
  - exists (mkDerived "p" [] (FPred "q" [])). reflexivity.
  - exists (mkDerived "p" [] (FNot (FPred "q" []))). reflexivity.
Qed.
Print Assumptions C23_derived_refuted.
(** What holds: on any family of terms in which equal constant names carry equal types, < is a
    strict total order compatible with ==.
    Missing: families with differently typed constants of one name. *)
Definition exactly_one (p q r : bool) : Prop :=
  (p = true /\ q = false /\ r = false) \/ (p = false /\ q = true /\ r = false)
  \/ (p = false /\ q = false /\ r = true).
Lemma tot_exactly_one {A} eqb lt (P : A -> Prop) : tot_order eqb lt P ->
  (forall a b, P a -> P b -> exactly_one (lt a b) (eqb a b) (lt b a)) /\
  (forall a b c, P a -> P b -> P c -> lt a b = true -> lt b c = true -> lt a c = true).
Proof.
  intros T. split.
  - intros a b Pa Pb. unfold exactly_one. destruct (eqb a b) eqn:E.
    + rewrite (to_irr _ _ _ T a b), (to_irr _ _ _ T b a); auto.
      now rewrite (eqv_sym _ (to_eq _ _ _ T)).
    + rewrite (to_tri _ _ _ T a b) by auto. destruct (lt b a); auto.
  - intros. eapply (to_tr _ _ _ T a b c); eauto.
Qed.
Theorem C23_terms_partial : forall S : term -> Prop, pool S ->
  (forall a b, S a -> S b -> exactly_one (term_lt a b) (term_eqb a b) (term_lt b a)) /\
  (forall a b c, S a -> S b -> S c -> term_lt a b = true -> term_lt b c = true -> term_lt a c = true).
Proof. exact (fun S p => tot_exactly_one _ _ _ (term_tot_order S p)). Qed.
Print Assumptions C23_terms_partial.
(** Predicates are totally ordered whatever their terms ([tags_set t]: the types of t are a set, true
    of every term that can be made): terms are compared by < only where they differ. *)
Theorem C23_predicates :
  (forall a b : string * list term, Forall tags_set (snd a) -> Forall tags_set (snd b) ->
     exactly_one (atom_lt (fst a) (snd a) (fst b) (snd b)) (atom_eqb a b)
                 (atom_lt (fst b) (snd b) (fst a) (snd a))) /\
  (forall a b c : string * list term, Forall tags_set (snd a) -> Forall tags_set (snd b) ->
     Forall tags_set (snd c) ->
     atom_lt (fst a) (snd a) (fst b) (snd b) = true ->
     atom_lt (fst b) (snd b) (fst c) (snd c) = true ->
     atom_lt (fst a) (snd a) (fst c) (snd c) = true).
Proof.
  destruct (tot_exactly_one _ _ _ atom_strict) as [A B]. split; intros.
  - apply A; auto.
  - apply (B a b c); auto.
Qed.
Print Assumptions C23_predicates.
(** sorted() of a set of predicates does not depend on its iteration order *)
Theorem C23_sorted : forall l m : list (string * list term),
  Forall (fun p => Forall tags_set (snd p)) l -> NoDupE atom_eqb l -> Permutation l m ->
  sort_by (fun p q => atom_lt (fst p) (snd p) (fst q) (snd q)) l
  = sort_by (fun p q => atom_lt (fst p) (snd p) (fst q) (snd q)) m.
Proof.
  intros l m F. apply (sort_any_order _ _ _ _ _ atom_strict).
  eapply Forall_impl; [|exact F]. simpl. auto.
Qed.
Print Assumptions C23_sorted.
Example C23_sorted_ex :
  let l := [("q", [TConst "c" (Some "t1")]); ("p", [TConst "c" (Some "t2"); TVar (mkVar "x" ["t"; "u"])])] in
  Forall (fun p => Forall tags_set (snd p)) l /\ NoDupE atom_eqb l.
Proof.
  split.
  - repeat constructor; simpl; intuition discriminate.
  - repeat constructor.
Qed.
Example C23_ex : pool (fun t => In t [TConst "a" None; TConst "b" (Some "t"); TVar (mkVar "a" ["t"; "u"]); TVar (mkVar "a" [])]).
Proof.
  split.
  - simpl. intros t H. repeat destruct H as [<-|H]; try tauto; unfold tags_set; simpl;
      repeat constructor; simpl; intuition discriminate.
  - simpl. intros a b Ha Hb. repeat destruct Ha as [<-|Ha]; try tauto; repeat destruct Hb as [<-|Hb]; try tauto;
      simpl; auto; discriminate.
Qed.

(** * C41 *)
Theorem C41_variable : forall n c v,
  mk_var n c = Ok v <->
  v = mkVar n (dedup String.eqb (coll_items c)) /\ legal_name n /\ coll_ok c
  /\ Forall legal_type (coll_items c).
Proof. exact mk_var_Ok. Qed.
Print Assumptions C41_variable.
Lemma var_tags_exact : forall n c v, mk_var n c = Ok v ->
  NoDup (v_tags v) /\ (forall g, In g (v_tags v) <-> In g (coll_items c)).
Proof.
  intros n c v H. apply mk_var_Ok in H as (-> & _). simpl. split.
  - apply dedup_string_NoDup.
  - intros. apply dedup_string_In.
Qed.
Theorem C41_tags : forall n c v, mk_var n c = Ok v ->
  NoDup (v_tags v) /\ (forall g, In g (v_tags v) <-> In g (coll_items c)).
Proof. exact var_tags_exact. Qed.
Print Assumptions C41_tags.
Lemma const_tag : forall n g t, mk_const n g = Ok t ->
  t_tags t = match g with Some x => [x] | None => [] end /\ type_tag t = Ok g.
Proof. intros n g t H. apply mk_const_Ok in H as (-> & _). destruct g; auto. Qed.
Theorem C41_constant : forall n g t,
  mk_const n g = Ok t <->
  t = TConst n g /\ legal_name n /\ match g with Some x => legal_type x | None => True end.
Proof. exact mk_const_Ok. Qed.
Print Assumptions C41_constant.
Theorem C41_type_tag : forall n g t, mk_const n g = Ok t ->
  t_tags t = match g with Some x => [x] | None => [] end /\ type_tag t = Ok g.
Proof. exact const_tag. Qed.
Print Assumptions C41_type_tag.
Example C41_ex : mk_var "x" (CList ["a"; "object"]) = Ok (mkVar "x" ["a"; "object"])
  /\ mk_var "x" (CList ["a"; "a"]) = Err ValueError
  /\ mk_const "c" (Some "when") = Err PDDLValidationError.
Proof. vm_compute. auto. Qed.
