(** Facts about the domain transformer: what a successful parse went through, and which of its
    attributes each rule changes. *)
From Coq Require Import String List Bool Arith Lia.
From Verif Require Import Py Names Reqs Logic Validation Core Lexer TypedList UpdateTags Parser.
From Verif Require Import Built Py_facts Logic_facts Names_facts Spec_Parse TypedList_facts
  Parse_facts GD_facts.
Import ListNotations.
Open Scope string_scope.
Open Scope list_scope.

Lemma bindM_Ok {A B} (m : M A) (k : A -> M B) st st' b :
  bindM m k st = (st', Ok b) <->
  exists st1 a, m st = (st1, Ok a) /\ k a st1 = (st', Ok b).
Proof.
  unfold bindM. split.
  - destruct (m st) as [st1 [a|e]]; [|discriminate]. eauto.
  - intros (st1 & a & -> & H). exact H.
Qed.
Lemma ret_Ok {A} (r : res A) st st' a : ret r st = (st', Ok a) <-> st' = st /\ r = Ok a.
Proof. unfold ret. split; [intros [= <- <-]; auto|intros [-> ->]; auto]. Qed.
Lemma reads_Ok {A} (f : dstate -> res A) st st' a :
  reads f st = (st', Ok a) <-> st' = st /\ f st = Ok a.
Proof. unfold reads. split; [intros [= <- <-]; auto|intros [-> ->]; auto]. Qed.
Lemma modify_Ok f st st' u : modify f st = (st', Ok u) <-> st' = f st.
Proof. unfold modify. destruct u. split; [intros [= <-]; auto|intros ->; auto]. Qed.
Lemma optM_Ok {A} (f : list sexp -> M A) o st st' r : optM f o st = (st', Ok r) <->
  match o with
  | Some l => exists a, f l st = (st', Ok a) /\ r = Some a
  | None => st' = st /\ r = None
  end.
Proof.
  destruct o; simpl.
  - rewrite bindM_Ok. split.
    + intros (st1 & a & H & R). apply ret_Ok in R as [-> [= <-]]. eauto.
    + intros (a & H & ->). exists st', a. auto.
  - rewrite ret_Ok. split; intros [-> H]; [inversion H; auto|subst; auto].
Qed.

Ltac minv H :=
  repeat match type of H with
  | bindM _ _ _ = (_, Ok _) => apply bindM_Ok in H; destruct H as (? & ? & ? & H)
  end.

(** ** a successful parse *)
Lemma domain_rule_inv n l0 st st' d : domain_rule n l0 st = (st', Ok d) ->
  exists o1 l1 st1 rs o2 l2 st2 ty o3 l3 st3 cs o4 l4 st4 ps o5 l5 fs st6 xs,
    section ":requirements" l0 = (o1, l1) /\ optM requirements o1 st = (st1, Ok rs)
    /\ section ":types" l1 = (o2, l2) /\ optM types_section o2 st1 = (st2, Ok ty)
    /\ section ":constants" l2 = (o3, l3) /\ optM constants_section o3 st2 = (st3, Ok cs)
    /\ section ":predicates" l3 = (o4, l4) /\ optM predicates_section o4 st3 = (st4, Ok ps)
    /\ section ":functions" l4 = (o5, l5)
    /\ optM (fun l => ret (functions_section l)) o5 st4 = (st4, Ok fs)
    /\ mapM structure_def l5 st4 = (st6, Ok xs)
    /\ st' = set_types None st6
    /\ mk_domain n (opt_list rs) ty (opt_list cs) (opt_list ps)
         (flat_map (fun x => match x with inl _ => [] | inr d => [d] end) xs) (opt_list fs)
         (flat_map (fun x => match x with inl a => [a] | inr _ => [] end) xs) = Ok d.
Proof.
  unfold domain_rule. intros H.
  destruct (section ":requirements" l0) as [o1 l1] eqn:S1.
  apply bindM_Ok in H as (st1 & rs & H1 & H).
  destruct (section ":types" l1) as [o2 l2] eqn:S2.
  apply bindM_Ok in H as (st2 & ty & H2 & H).
  destruct (section ":constants" l2) as [o3 l3] eqn:S3.
  apply bindM_Ok in H as (st3 & cs & H3 & H).
  destruct (section ":predicates" l3) as [o4 l4] eqn:S4.
  apply bindM_Ok in H as (st4 & ps & H4 & H).
  destruct (section ":functions" l4) as [o5 l5] eqn:S5.
  apply bindM_Ok in H as (st5 & fs & H5 & H).
  apply bindM_Ok in H as (st6 & xs & H6 & H).
  apply bindM_Ok in H as (st7 & u & H7 & H).
  apply modify_Ok in H7. apply ret_Ok in H as [-> H].
  assert (st5 = st4).
  { apply optM_Ok in H5. destruct o5; [|tauto]. destruct H5 as (a & H5 & _).
    now apply ret_Ok in H5 as [-> _]. }
  subst st5.
  exists o1, l1, st1, rs, o2, l2, st2, ty, o3, l3, st3, cs, o4, l4, st4, ps, o5, l5, fs, st6, xs.
  subst. repeat (split; [first [assumption|reflexivity]|]). assumption.
Qed.
Local Ltac bad := intros H; apply ret_Ok in H as [_ H]; discriminate.
Lemma parse_domain_inv s st st' d : parse_domain s st = (st', Ok d) ->
  exists n l0, domain_text s n l0 /\ domain_rule n l0 st = (st', Ok d).
Proof.
  unfold parse_domain, domain_text. destruct (read_text s) as [l|] eqn:R.
  2:{ intros H. apply ret_Ok in H as [_ H]. discriminate. }
  unfold parse_domain_sexp.
  destruct l as [|x l]; try bad. destruct x as [|x]; try bad.
  destruct x as [|k1 x]; try bad. destruct k1 as [k1|]; try bad. destruct k1; try bad.
  destruct x as [|x1 secs]; try bad. destruct x1 as [|x1]; try bad.
  destruct x1 as [|k2 x1]; try bad. destruct k2 as [k2|]; try bad. destruct k2; try bad.
  destruct x1 as [|n x1]; try bad. destruct n as [n|]; try bad. destruct n; try bad.
  destruct x1; try bad. destruct l; try bad.
  destruct (String.eqb_spec s0 "define") as [->|]; cbn [andb];
    [|intros H; apply ret_Ok in H as [_ H]; discriminate].
  destruct (String.eqb_spec s1 "domain") as [->|];
    [|intros H; apply ret_Ok in H as [_ H]; discriminate].
  intros H. exists s2, secs. auto.
Qed.

(** ** which attributes each rule changes; [same st st'] for those it keeps *)
Lemma requirements_st l st st' rs : requirements l st = (st', Ok rs) ->
  exists ks, require_keys l = Ok ks /\ rs = dedup req_eqb ks /\ st' = set_ext (extend_reqs ks) st.
Proof.
  unfold requirements. intros H. apply bindM_Ok in H as (st1 & ks & K & H).
  apply ret_Ok in K as [-> K]. apply bindM_Ok in H as (st2 & u & Mo & H).
  apply modify_Ok in Mo. apply ret_Ok in H as [-> H]. inversion H; subst. eauto.
Qed.
Lemma types_st l st st' d : types_section l st = (st', Ok d) ->
  st' = set_types (Some d) st /\ s_types st = None.
Proof.
  unfold types_section. intros H. apply bindM_Ok in H as (st1 & d0 & K & H).
  apply ret_Ok in K as [-> K]. apply bindM_Ok in H as (st2 & u & R & H).
  apply reads_Ok in R as [-> R]. apply bindM_Ok in H as (st3 & u' & R' & H).
  apply reads_Ok in R' as [-> R']. apply bindM_Ok in H as (st4 & u'' & Mo & H).
  apply modify_Ok in Mo. apply ret_Ok in H as [-> H]. inversion H; subst. split; auto.
  destruct u'. apply check_Ok in R'. destruct (s_types st); [discriminate|auto].
Qed.
Lemma constants_st l st st' cs : constants_section l st = (st', Ok cs) ->
  exists d, objects_section l = Ok d /\ st' = set_constants d st /\ cs = map snd d.
Proof.
  unfold constants_section, objects_section. intros H. apply bindM_Ok in H as (st1 & d0 & K & H).
  apply ret_Ok in K as [-> K]. apply bindM_Ok in H as (st2 & d & R & H).
  apply ret_Ok in R as [-> R]. apply bindM_Ok in H as (st4 & u'' & Mo & H).
  apply modify_Ok in Mo. apply ret_Ok in H as [-> H]. inversion H; subst.
  exists d. rewrite K. auto.
Qed.
Lemma predicates_st l st st' ps : predicates_section l st = (st', Ok ps) ->
  l <> [] /\ mapR atomic_formula_skeleton l = Ok ps
  /\ st' = set_predicates (dict_of_list String.eqb (map (fun p => (fst p, p)) ps)) st.
Proof.
  unfold predicates_section. intros H. apply bindM_Ok in H as (st1 & d0 & K & H).
  apply ret_Ok in K as [-> K]. apply bindM_Ok in H as (st4 & u'' & Mo & H).
  apply modify_Ok in Mo. apply ret_Ok in H as [-> H]. inversion H; subst.
  destruct l; [discriminate|]. split; [discriminate|]. auto.
Qed.
Lemma action_parameters_st l st st' vs : action_parameters l st = (st', Ok vs) ->
  exists tl vars, typed_list_variable l = Ok tl /\ mk_vars tl = Ok vars
    /\ st' = set_params (dict_of_list String.eqb (combine (map fst tl) vars)) st
    /\ vs = map (fun kv => TVar (snd kv)) (dict_of_list String.eqb (combine (map fst tl) vars)).
Proof.
  unfold action_parameters. intros H. apply bindM_Ok in H as (st1 & tl & K & H).
  apply ret_Ok in K as [-> K]. apply bindM_Ok in H as (st2 & vars & R & H).
  apply ret_Ok in R as [-> R]. apply bindM_Ok in H as (st4 & u'' & Mo & H).
  apply modify_Ok in Mo. apply ret_Ok in H as [-> H]. inversion H; subst.
  exists tl, vars. auto.
Qed.
Lemma action_def_st l st st' a : action_def l st = (st', Ok a) ->
  exists n ps body vs b, l = SAtom (TWord n) :: SAtom (TKw ":parameters") :: SList ps :: body
    /\ action_parameters ps st = (st', Ok vs)
    /\ action_body body st' = Ok b
    /\ mk_action n vs (Some (fst b)) (Some (snd b)) = Ok a.
Proof.
  unfold action_def.
  destruct l as [|[[]|] [|k [|[|ps] body]]]; try (intros H; apply ret_Ok in H as [_ H]; discriminate).
  destruct (is_kw ":parameters" k) eqn:K; [|intros H; apply ret_Ok in H as [_ H]; discriminate].
  intros H. apply bindM_Ok in H as (st1 & vs & P & H). apply bindM_Ok in H as (st2 & b & B & H).
  apply reads_Ok in B as [-> B]. apply ret_Ok in H as [-> H].
  destruct k as [[]|]; try discriminate. apply String.eqb_eq in K. subst.
  exists s, ps, body, vs, b. auto.
Qed.
Lemma derived_def_st l st st' d : derived_def l st = (st', Ok d) ->
  st' = st /\ exists h x, l = [h; x].
Proof.
  unfold derived_def. destruct l as [|h [|x [|]]];
    try (intros H; apply ret_Ok in H as [_ H]; discriminate).
  intros H. apply bindM_Ok in H as (st1 & hd & A & H). apply ret_Ok in A as [-> A].
  apply bindM_Ok in H as (st2 & c & G & H). apply reads_Ok in G as [-> G].
  apply reads_Ok in H as [-> H]. split; eauto.
Qed.
Lemma structure_def_st s st st' x : structure_def s st = (st', Ok x) ->
  (exists body a, s = section_sx ":action" body /\ x = inl a /\ action_def body st = (st', Ok a))
  \/ (exists body d, s = section_sx ":derived" body /\ x = inr d
        /\ derived_def body st = (st', Ok d)).
Proof.
  unfold structure_def. destruct s as [|[|k body]];
    try (intros H; apply ret_Ok in H as [_ H]; discriminate).
  destruct (is_kw ":action" k) eqn:K1.
  - intros H. apply bindM_Ok in H as (st1 & a & A & H). apply ret_Ok in H as [-> [= <-]].
    destruct k as [[]|]; try discriminate. apply String.eqb_eq in K1. subst.
    left. exists body, a. auto.
  - destruct (is_kw ":derived" k) eqn:K2; [|intros H; apply ret_Ok in H as [_ H]; discriminate].
    intros H. apply bindM_Ok in H as (st1 & a & A & H). apply ret_Ok in H as [-> [= <-]].
    destruct k as [[]|]; try discriminate. apply String.eqb_eq in K2. subst.
    right. exists body, a. auto.
Qed.

(** running the structure definitions one after the other *)
Inductive runs {A B} (f : A -> M B) : dstate -> list A -> list B -> dstate -> Prop :=
| runs_nil st : runs f st [] [] st
| runs_cons st x st1 y l ys st2 : f x st = (st1, Ok y) -> runs f st1 l ys st2 ->
    runs f st (x :: l) (y :: ys) st2.
Lemma mapM_runs {A B} (f : A -> M B) l : forall st st' ys,
  mapM f l st = (st', Ok ys) <-> runs f st l ys st'.
Proof.
  induction l as [|x l IH]; intros st st' ys; cbn [mapM].
  - rewrite ret_Ok. split; [intros [-> [= <-]]; constructor|intros R; inversion R; auto].
  - split.
    + intros H. apply bindM_Ok in H as (st1 & y & F & H). apply bindM_Ok in H as (st2 & ys' & G & H).
      apply ret_Ok in H as [-> [= <-]]. econstructor; eauto. now apply IH.
    + intros R. inversion R; subst. apply bindM_Ok. do 2 eexists. split; [eassumption|].
      apply bindM_Ok. do 2 eexists. split; [apply IH; eassumption|]. reflexivity.
Qed.

(** the state between the first and the i-th definition *)
Lemma runs_In {A B} (f : A -> M B) (I : dstate -> Prop) st l ys st' y :
  runs f st l ys st' -> I st -> (forall x s s' z, I s -> f x s = (s', Ok z) -> In z ys -> I s') ->
  In y ys -> exists x s s', I s /\ In x l /\ f x s = (s', Ok y).
Proof.
  induction 1 as [|st x st1 z l ys st2 F R IH]; intros I0 K Y; [destruct Y|].
  destruct Y as [->|Y].
  - exists x, st, st1. simpl. auto.
  - destruct IH as (x' & s & s' & Is & Hx & Hf); auto.
    + eapply K; eauto. simpl; auto.
    + intros. eapply K; eauto. simpl; auto.
    + exists x', s, s'. simpl. auto.
Qed.
Lemma runs_all {A B} (f : A -> M B) st l ys st' x :
  runs f st l ys st' -> In x l -> exists s s' y, In y ys /\ f x s = (s', Ok y).
Proof.
  induction 1 as [|st x' st1 z l ys st2 F R IH]; intros Y; [destruct Y|].
  destruct Y as [->|Y].
  - exists st, st1, z. simpl. auto.
  - destruct IH as (s & s' & y & Hy & Hf); auto. exists s, s', y. simpl. auto.
Qed.
