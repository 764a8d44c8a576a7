(** The definitions of a domain text are read one by one. *)
From Coq Require Import String List Bool.
From Verif Require Import Py Names Reqs Logic Validation Core Lexer TypedList UpdateTags Parser.
From Verif Require Import Spec Spec_Core Spec_Parse Spec_Same Spec_Apart.
From Verif Require Twice_facts.
From Verif Require Import Py_facts Names_facts Logic_facts Validation_facts Core_facts CoreEq_facts GD_facts Inst_facts Domain_facts DomainRead_facts Action_facts.
Import ListNotations.
Open Scope string_scope.
Open Scope list_scope.

(** * One definition *)
(** what an action is read in *)
Definition same_words (st st' : dstate) : Prop := s_constants st' = s_constants st /\ s_ext st' = s_ext st.
(** what else a derived predicate is read in, but for the parameters *)
Definition same_base (st st' : dstate) : Prop :=
  same_words st st' /\ s_predicates st' = s_predicates st /\ s_types st' = s_types st.

Lemma params_ctx d st st' : same_words st st' -> domain_ctx (set_params d st') = domain_ctx (set_params d st).
Proof. intros (E1 & E2). unfold domain_ctx. cbn. now rewrite E1, E2. Qed.
Lemma action_body_words l d st st' : same_words st st' -> action_body l (set_params d st') = action_body l (set_params d st).
Proof. intros W. unfold action_body. now rewrite (params_ctx d st st' W). Qed.
Lemma action_result body st st' : same_words st st' ->
  snd (structure_def (section_sx ":action" body) st') = snd (structure_def (section_sx ":action" body) st).
Proof.
  intros W. cbn [structure_def section_sx is_kw]. cbn [String.eqb Ascii.eqb Bool.eqb]. unfold bindM.
  assert (E : snd (action_def body st') = snd (action_def body st)).
  { unfold action_def. destruct body as [|[[]|] [|k' [|[|ps] body]]]; try reflexivity.
    destruct (is_kw ":parameters" k'); [|reflexivity]. unfold action_parameters, bindM, ret, modify, reads.
    destruct (typed_list_variable ps) as [tl|]; [|reflexivity]. destruct (mk_vars tl) as [vs|]; [|reflexivity].
    rewrite (action_body_words body _ _ _ W). destruct (action_body _ _); reflexivity. }
  destruct (action_def body st') as [s1 r1], (action_def body st) as [s2 r2]. cbn [snd] in E. subst r2.
  destruct r1; reflexivity.
Qed.
Lemma structure_base x st : same_base st (fst (structure_def x st)).
Proof.
  assert (R : forall st0, same_base st0 st0) by (intros; repeat split).
  unfold structure_def. destruct x as [|[|k body]]; try apply R.
  destruct (is_kw ":action" k).
  - unfold bindM. assert (E : same_base st (fst (action_def body st))).
    { unfold action_def. destruct body as [|[[]|] [|k' [|[|ps] body]]]; try apply R.
      destruct (is_kw ":parameters" k'); [|apply R]. unfold action_parameters, bindM, ret, modify, reads.
      destruct (typed_list_variable ps) as [tl|]; [|apply R]. destruct (mk_vars tl) as [vs|]; [|apply R].
      destruct (action_body _ _); repeat split. }
    destruct (action_def body st) as [s1 [a|]]; exact E.
  - destruct (is_kw ":derived" k); [|apply R]. unfold bindM.
    assert (E : same_base st (fst (derived_def body st))).
    { unfold derived_def. destruct body as [|h [|y [|]]]; try apply R. unfold bindM, ret, reads.
      destruct (atomic_formula_skeleton h) as [hd|]; [|apply R]. destruct (gd _ y); apply R. }
    destruct (derived_def body st) as [s1 [a|]]; exact E.
Qed.
Lemma base_trans a b c : same_base a b -> same_base b c -> same_base a c.
Proof. unfold same_base, same_words. intuition congruence. Qed.
Lemma action_state body st st' st1 y : same_base st st' ->
  structure_def (section_sx ":action" body) st = (st1, Ok y) -> structure_def (section_sx ":action" body) st' = (st1, Ok y).
Proof.
  intros ((W1 & W2) & W3 & W4) H. pose proof (action_result body st st' (conj W1 W2)) as R. rewrite H in R. cbn [snd] in R.
  destruct (structure_def (section_sx ":action" body) st') as [st2 r] eqn:E. cbn [snd] in R. subst r. f_equal.
  apply structure_def_st in H as [(b & a & B & _ & H)|(b & a & B & _)]; [|discriminate].
  apply structure_def_st in E as [(b' & a' & B' & _ & E)|(b' & a' & B' & _)]; [|discriminate].
  unfold section_sx in *. injection B as <-. injection B' as <-.
  apply action_def_st in H as (n & ps & bd & vs & b0 & -> & P & _).
  apply action_def_st in E as (n' & ps' & bd' & vs' & b0' & E' & P' & _). injection E' as <- <- <-.
  apply action_parameters_st in P as (tl & vars & T & V & -> & _). apply action_parameters_st in P' as (tl' & vars' & T' & V' & -> & _).
  rewrite T in T'. injection T' as <-. rewrite V in V'. injection V' as <-. unfold set_params. now rewrite W1, W2, W3, W4.
Qed.
Lemma derived_state body st : fst (structure_def (section_sx ":derived" body) st) = st.
Proof.
  cbn [structure_def section_sx is_kw]. cbn [String.eqb Ascii.eqb Bool.eqb]. unfold bindM.
  assert (E : fst (derived_def body st) = st).
  { unfold derived_def. destruct body as [|h [|y [|]]]; try reflexivity. unfold bindM, ret, reads.
    destruct (atomic_formula_skeleton h) as [hd|]; [|reflexivity]. destruct (gd _ y); reflexivity. }
  destruct (derived_def body st) as [s1 [a|]]; exact E.
Qed.

(** * All definitions *)
Definition ctx_state (st : dstate) (o : option sexp) : dstate :=
  match o with None => st | Some x => fst (structure_def x st) end.
Definition read (st : dstate) (p : place) : res (action + derived) :=
  match p with Act x => snd (structure_def x st) | Der o x => snd (structure_def x (ctx_state st o)) end.
Fixpoint places (o : option sexp) (defs : list sexp) : list place :=
  match defs with
  | [] => []
  | x :: r => match x with
              | SList (k :: _) => if is_kw ":action" k then Act x :: places (Some x) r else Der o x :: places o r
              | _ => []
              end
  end.
Lemma runs_places st defs : Forall definition defs -> forall o ys,
  (exists st', runs structure_def (ctx_state st o) defs ys st') <-> map (read st) (places o defs) = map Ok ys.
Proof.
  induction 1 as [|x defs D F IH]; intros o ys.
  - cbn [places map]. split; [intros (st' & R); inversion R; reflexivity|]. destruct ys; [|discriminate]. intros _. eexists. constructor.
  - assert (B : same_base (ctx_state st o) st).
    { destruct o; [|repeat split]. cbn [ctx_state]. pose proof (structure_base s st) as Q. unfold same_base, same_words in *. intuition congruence. }
    assert (B' : same_base st (ctx_state st o)) by (unfold same_base, same_words in *; intuition congruence).
    destruct D as [(body & ->)|(body & ->)].
    + change (places o (section_sx ":action" body :: defs)) with (Act (section_sx ":action" body) :: places (Some (section_sx ":action" body)) defs).
      cbn [map read]. split.
      * intros (st' & R). inversion R as [|? ? st1 y ? ys' ? E R' e1 e2 e3]; subst. cbn [map].
        pose proof (action_state _ _ _ _ _ B E) as E'. f_equal; [now rewrite E'|]. apply IH. exists st'. cbn [ctx_state]. rewrite E'. exact R'.
      * destruct ys as [|y ys]; [discriminate|]. cbn [map]. intros EE. injection EE as E1 E2. change (snd (structure_def (section_sx ":action" body) st) = Ok y) in E1.
        destruct (structure_def (section_sx ":action" body) st) as [st1 r] eqn:E; rewrite ?E in E1; cbn [snd] in E1; subst r.
        apply IH in E2 as (st' & R). cbn [ctx_state] in R. rewrite E in R. cbn [fst] in R. exists st'. econstructor; [|exact R].
        exact (action_state _ _ _ _ _ B' E).
    + change (places o (section_sx ":derived" body :: defs)) with (Der o (section_sx ":derived" body) :: places o defs).
      cbn [map read]. pose proof (derived_state body (ctx_state st o)) as K. split.
      * intros (st' & R). inversion R as [|? ? st1 y ? ys' ? E R' e1 e2 e3]; subst. cbn [map]. rewrite E in *. cbn [fst snd] in *.
        subst st1. f_equal. apply IH. eauto.
      * destruct ys as [|y ys]; [discriminate|]. cbn [map]. intros EE. injection EE as E1 E2. change (snd (structure_def (section_sx ":derived" body) (ctx_state st o)) = Ok y) in E1.
        destruct (structure_def (section_sx ":derived" body) (ctx_state st o)) as [st1 r] eqn:E; rewrite ?E in K, E1. cbn [fst snd] in K, E1. subst r. subst st1.
        apply IH in E2 as (st' & R). exists st'. econstructor; eauto.
Qed.

(** the list of places is the specification's *)
Lemma last_action_Some_snoc l x o : last_action l o -> derived_sect x -> last_action (l ++ [x]) o.
Proof.
  intros [l' F|l' y r A F] D; [apply la_none; apply Forall_app; auto|].
  rewrite <- app_assoc. cbn [app]. apply la_some; auto. apply Forall_app; auto.
Qed.
Lemma places_placed defs : Forall definition defs -> forall l o, last_action l o ->
  forall p, In p (places o defs) -> placed p (l ++ defs).
Proof.
  induction 1 as [|x defs D F IH]; intros l o L p; [intros []|].
  destruct D as [(body & ->)|(body & ->)].
  - change (places o (section_sx ":action" body :: defs)) with (Act (section_sx ":action" body) :: places (Some (section_sx ":action" body)) defs).
    intros [<-|I].
    + apply p_act; [apply in_or_app; right; now left|now exists body].
    + change (l ++ section_sx ":action" body :: defs) with (l ++ [section_sx ":action" body] ++ defs). rewrite app_assoc.
      refine (IH _ _ _ p I). apply la_some; auto. now exists body.
  - change (places o (section_sx ":derived" body :: defs)) with (Der o (section_sx ":derived" body) :: places o defs).
    intros [<-|I].
    + apply p_der; auto. now exists body.
    + change (l ++ section_sx ":derived" body :: defs) with (l ++ [section_sx ":derived" body] ++ defs). rewrite app_assoc.
      refine (IH _ _ _ p I). apply last_action_Some_snoc; auto. now exists body.
Qed.
Lemma places_app l r : Forall definition l -> forall o, exists o', places o (l ++ r) = places o l ++ places o' r /\
  ((Forall derived_sect l -> o' = o) /\ forall l1 x l2, l = l1 ++ x :: l2 -> action_sect x -> Forall derived_sect l2 -> o' = Some x).
Proof.
  induction 1 as [|y l D F IH]; intros o.
  - exists o. split; [reflexivity|]. split; auto. intros l1 x l2 E. destruct l1; discriminate.
  - destruct D as [(body & ->)|(body & ->)].
    + destruct (IH (Some (section_sx ":action" body))) as (o' & E & N & A). exists o'. split; [|split].
      * cbn [app]. change (places o (section_sx ":action" body :: l ++ r)) with (Act (section_sx ":action" body) :: places (Some (section_sx ":action" body)) (l ++ r)).
        rewrite E. reflexivity.
      * intros Q. inversion Q as [|? ? (b & Q') _]; subst. discriminate.
      * intros l1 x l2 Q1 Q2 Q3. destruct l1 as [|z l1]; cbn [app] in Q1.
        -- injection Q1 as <- <-. now apply N.
        -- injection Q1 as _ Q1. eapply A; eauto.
    + destruct (IH o) as (o' & E & N & A). exists o'. split; [|split].
      * cbn [app]. change (places o (section_sx ":derived" body :: l ++ r)) with (Der o (section_sx ":derived" body) :: places o (l ++ r)).
        rewrite E. reflexivity.
      * intros Q. inversion Q; subst. now apply N.
      * intros l1 x l2 Q1 Q2 Q3. destruct l1 as [|z l1]; cbn [app] in Q1.
        -- injection Q1 as <- <-. destruct Q2 as (b & Q2). discriminate.
        -- injection Q1 as _ Q1. eapply A; eauto.
Qed.
Lemma placed_places defs p : Forall definition defs -> placed p defs -> In p (places None defs).
Proof.
  intros F H. destruct H as [x defs I (body & ->)|l x r o (body & ->) L].
  - apply in_split in I as (l & r & ->). apply Forall_app in F as [F1 F2].
    destruct (places_app l (section_sx ":action" body :: r) F1 None) as (o' & E & _). rewrite E. apply in_or_app. right. now left.
  - apply Forall_app in F as [F1 F2]. destruct (places_app l (section_sx ":derived" body :: r) F1 None) as (o' & E & N & A).
    assert (o' = o) as ->.
    { destruct L as [l' Fl|l' x r' Ax Fr]; [now apply N|]. eapply A; eauto. }
    rewrite E. apply in_or_app. right. now left.
Qed.

(** * The declarations *)
Definition header (rq ty cs ps : option (list sexp)) : M (option (list req) * option types_dict * option (list const) * option (list atom)) :=
  do rs <- optM requirements rq;
  do t <- optM types_section ty;
  do c <- optM constants_section cs;
  do p <- optM predicates_section ps;
  ret (Ok (rs, t, c, p)).
Definition opt_fun (o : option (list sexp)) : res (option functions_dict) :=
  match o with None => Ok None | Some l => let* f := functions_section l in Ok (Some f) end.

Lemma heads_definitions defs : Forall definition defs -> heads [":action"; ":derived"] defs.
Proof.
  intros [|x l [(b & ->)|(b & ->)] F]; cbn; auto; [exists ":action", b|exists ":derived", b]; cbn; auto.
Qed.
Lemma domain_rule_declared n rq ty cs ps fs defs : Forall definition defs -> forall st st1 h,
  header rq ty cs ps st = (st1, Ok h) ->
  domain_rule n (declarations rq ty cs ps fs ++ defs) st =
  (do f <- ret (opt_fun fs);
   do xs <- mapM structure_def defs;
   let acts := flat_map (fun x => match x with inl a => [a] | inr _ => [] end) xs in
   let dps := flat_map (fun x => match x with inl _ => [] | inr d => [d] end) xs in
   do _ <- modify (set_types None);
   ret (mk_domain n (opt_list (fst (fst (fst h)))) (snd (fst (fst h))) (opt_list (snd (fst h))) (opt_list (snd h)) dps (opt_list f) acts)) st1.
Proof.
  intros F st st1 [[[r t] c] p] H. unfold declarations, domain_rule. rewrite <- !app_assoc.
  pose proof (heads_definitions _ F) as H0.
  pose proof (heads_opt ":functions" fs _ _ H0) as H5.
  pose proof (heads_opt ":predicates" ps _ _ H5) as H4.
  pose proof (heads_opt ":constants" cs _ _ H4) as H3.
  pose proof (heads_opt ":types" ty _ _ H3) as H2.
  unfold header in H. apply bindM_Ok in H as (s1 & r' & R & H). apply bindM_Ok in H as (s2 & t' & T & H).
  apply bindM_Ok in H as (s3 & c' & C & H). apply bindM_Ok in H as (s4 & p' & P & H). apply ret_Ok in H as [-> H].
  injection H as -> -> -> ->. cbn [fst snd].
  rewrite (section_opt ":requirements" _ _ _ H2) by (cbn; intuition discriminate). unfold bindM at 1. rewrite R.
  rewrite (section_opt ":types" _ _ _ H3) by (cbn; intuition discriminate). unfold bindM at 1. rewrite T.
  rewrite (section_opt ":constants" _ _ _ H4) by (cbn; intuition discriminate). unfold bindM at 1. rewrite C.
  rewrite (section_opt ":predicates" _ _ _ H5) by (cbn; intuition discriminate). unfold bindM at 1. rewrite P.
  rewrite (section_opt ":functions" _ _ _ H0) by (cbn; intuition discriminate).
  destruct fs as [l|]; [|reflexivity]. cbn [optM opt_fun]. unfold bindM, ret. destruct (functions_section l); reflexivity.
Qed.
Lemma domain_rule_header n rq ty cs ps fs defs : Forall definition defs -> forall st st' d,
  domain_rule n (declarations rq ty cs ps fs ++ defs) st = (st', Ok d) ->
  exists st1 h, header rq ty cs ps st = (st1, Ok h).
Proof.
  intros F st st' d H. unfold declarations in H. rewrite <- !app_assoc in H. unfold domain_rule in H.
  pose proof (heads_definitions _ F) as H0.
  pose proof (heads_opt ":functions" fs _ _ H0) as H5.
  pose proof (heads_opt ":predicates" ps _ _ H5) as H4.
  pose proof (heads_opt ":constants" cs _ _ H4) as H3.
  pose proof (heads_opt ":types" ty _ _ H3) as H2.
  rewrite (section_opt ":requirements" _ _ _ H2) in H by (cbn; intuition discriminate). apply bindM_Ok in H as (s1 & r' & R & H).
  rewrite (section_opt ":types" _ _ _ H3) in H by (cbn; intuition discriminate). apply bindM_Ok in H as (s2 & t' & T & H).
  rewrite (section_opt ":constants" _ _ _ H4) in H by (cbn; intuition discriminate). apply bindM_Ok in H as (s3 & c' & C & H).
  rewrite (section_opt ":predicates" _ _ _ H5) in H by (cbn; intuition discriminate). apply bindM_Ok in H as (s4 & p' & P & H).
  unfold header, bindM. rewrite R, T, C, P. do 2 eexists. reflexivity.
Qed.

(** an accepted domain in terms of its places *)
Definition actions_in (ys : list (action + derived)) : list action := flat_map (fun x => match x with inl a => [a] | inr _ => [] end) ys.
Definition derived_in (ys : list (action + derived)) : list derived := flat_map (fun x => match x with inl _ => [] | inr d => [d] end) ys.
Lemma accepted_iff s n rq ty cs ps fs defs : domain_text s n (declarations rq ty cs ps fs ++ defs) -> Forall definition defs -> forall d,
  parse_domain_fresh s = Ok d <->
  exists st1 r t c p f ys, header rq ty cs ps init_dstate = (st1, Ok (r, t, c, p)) /\ opt_fun fs = Ok f /\
    map (read st1) (places None defs) = map Ok ys /\
    mk_domain n (opt_list r) t (opt_list c) (opt_list p) (derived_in ys) (opt_list f) (actions_in ys) = Ok d.
Proof.
  intros T F d. unfold parse_domain_fresh. rewrite (Feature_facts.parse_domain_rule _ _ _ _ T). split.
  - intros H. destruct (domain_rule _ _ _) as [st' r0] eqn:E. cbn [snd] in H. subst r0.
    destruct (domain_rule_header _ _ _ _ _ _ _ F _ _ _ E) as (st1 & [[[r t] c] p] & Hh).
    rewrite (domain_rule_declared _ _ _ _ _ _ _ F _ _ _ Hh) in E. cbn [fst snd] in E.
    apply bindM_Ok in E as (st2 & f & Hf & E). apply ret_Ok in Hf as [-> Hf].
    apply bindM_Ok in E as (st3 & ys & Hy & E). apply bindM_Ok in E as (st4 & u & _ & E). apply ret_Ok in E as [_ E].
    apply mapM_runs in Hy. exists st1, r, t, c, p, f, ys. split; [exact Hh|]. split; [exact (eq_sym Hf) || exact Hf|]. split; [|exact (eq_sym E) || exact E].
    apply runs_places; [exact F|]. exists st3. exact Hy.
  - intros (st1 & r & t & c & p & f & ys & Hh & Hf & Hy & Hd).
    rewrite (domain_rule_declared _ _ _ _ _ _ _ F _ _ _ Hh). cbn [fst snd]. unfold bindM, ret, modify. rewrite Hf.
    apply runs_places in Hy as (st' & R); [|exact F]. apply mapM_runs in R. cbn [ctx_state] in R. rewrite R. cbn [snd]. exact Hd.
Qed.

(** every accepted text has that shape *)
Lemma section_shape k l o l' : section k l = (o, l') -> l = opt_section k o ++ l'.
Proof.
  unfold section. destruct l as [|[|[|k' body]] r]; try (intros [= <- <-]; reflexivity).
  destruct (is_kw k k') eqn:E; intros [= <- <-]; [|reflexivity].
  destruct k' as [[]|]; try discriminate. apply String.eqb_eq in E. subst. reflexivity.
Qed.
Lemma accepted_shape s st st' d : parse_domain s st = (st', Ok d) ->
  exists n rq ty cs ps fs defs, domain_text s n (declarations rq ty cs ps fs ++ defs) /\ Forall definition defs.
Proof.
  intros H. apply parse_domain_inv in H as (n & l & T & H).
  apply domain_rule_inv in H as (o1 & l1 & st1 & rs & o2 & l2 & st2 & ty & o3 & l3 & st3 & cs & o4
    & l4 & st4 & ps & o5 & l5 & fs & st6 & xs & S1 & _ & S2 & _ & S3 & _ & S4 & _ & S5 & _ & H6 & _).
  exists n, o1, o2, o3, o4, o5, l5. apply section_shape in S1, S2, S3, S4, S5. subst. split.
  - unfold domain_text, declarations. rewrite <- !app_assoc. exact T.
  - apply mapM_runs in H6. clear -H6. induction H6 as [|st x st1 y l ys st2 E R IH]; constructor; auto.
    apply structure_def_st in E as [(b & a & -> & _)|(b & a & -> & _)]; [left|right]; now exists b.
Qed.

(** * What an action and a derived predicate depend on *)
Lemma header_state rq ty cs ps st1 r t c p : header rq ty cs ps init_dstate = (st1, Ok (r, t, c, p)) ->
  s_ext st1 = match rq with None => [] | Some l => match require_keys l with Ok ks => extend_reqs ks | _ => [] end end /\
  s_constants st1 = match cs with None => [] | Some l => match objects_section l with Ok d => d | _ => [] end end /\
  s_params st1 = [].
Proof.
  unfold header. intros H. apply bindM_Ok in H as (s1 & r' & R & H). apply bindM_Ok in H as (s2 & t' & T & H).
  apply bindM_Ok in H as (s3 & c' & C & H). apply bindM_Ok in H as (s4 & p' & P & H). apply ret_Ok in H as [-> _].
  assert (A1 : s_ext s1 = match rq with None => [] | Some l => match require_keys l with Ok ks => extend_reqs ks | _ => [] end end /\ s_constants s1 = [] /\ s_params s1 = []).
  { destruct rq as [l|]; cbn [optM] in R.
    - apply bindM_Ok in R as (s & a & R & R'). apply ret_Ok in R' as [-> _]. apply requirements_st in R as (ks & K & _ & ->). rewrite K. repeat split.
    - apply ret_Ok in R as [-> _]. repeat split. }
  assert (A2 : s_ext s2 = s_ext s1 /\ s_constants s2 = s_constants s1 /\ s_params s2 = s_params s1).
  { destruct ty as [l|]; cbn [optM] in T.
    - apply bindM_Ok in T as (s & a & T & T'). apply ret_Ok in T' as [-> _]. apply types_st in T as (-> & _). repeat split.
    - apply ret_Ok in T as [-> _]. repeat split. }
  assert (A3 : s_ext s3 = s_ext s2 /\ s_constants s3 = match cs with None => s_constants s2 | Some l => match objects_section l with Ok d => d | _ => [] end end /\ s_params s3 = s_params s2).
  { destruct cs as [l|]; cbn [optM] in C.
    - apply bindM_Ok in C as (s & a & C & C'). apply ret_Ok in C' as [-> _]. apply constants_st in C as (d & D & -> & _). rewrite D. repeat split.
    - apply ret_Ok in C as [-> _]. repeat split. }
  assert (A4 : s_ext s4 = s_ext s3 /\ s_constants s4 = s_constants s3 /\ s_params s4 = s_params s3).
  { destruct ps as [l|]; cbn [optM] in P.
    - apply bindM_Ok in P as (s & a & P & P'). apply ret_Ok in P' as [-> _]. apply predicates_st in P as (_ & _ & ->). repeat split.
    - apply ret_Ok in P as [-> _]. repeat split. }
  destruct A1 as (A1 & B1 & C1), A2 as (A2 & B2 & C2), A3 as (A3 & B3 & C3), A4 as (A4 & B4 & C4).
  split; [congruence|]. split; [|congruence]. rewrite B4, B3. destruct cs; congruence.
Qed.

Lemma read_inl_action st p a : read st p = Ok (inl a) -> exists x, p = Act x \/ exists o, p = Der o x /\ action_sect x.
Proof. destruct p as [x|o x]; intros H; exists x; auto. right. exists o. split; auto.
  cbn [read] in H. destruct (structure_def x (ctx_state st o)) as [s r] eqn:E. cbn [snd] in H. subst r.
  apply structure_def_st in E as [(b & a' & -> & _)|(b & a' & _ & E & _)]; [now exists b|discriminate]. Qed.

Definition no_action : action := mkAction "" [] None None.
Definition no_derived : derived := mkDerived "" [] (FBin OAnd []).
Definition act_of (r : res (action + derived)) : action := match r with Ok (inl a) => a | _ => no_action end.
Definition der_of (r : res (action + derived)) : derived := match r with Ok (inr d) => d | _ => no_derived end.

Lemma places_sect defs : Forall definition defs -> forall o p, In p (places o defs) ->
  match p with Act x => action_sect x | Der _ x => derived_sect x end.
Proof.
  induction 1 as [|x defs D F IH]; intros o p; [intros []|]. destruct D as [(b & ->)|(b & ->)].
  - change (places o (section_sx ":action" b :: defs)) with (Act (section_sx ":action" b) :: places (Some (section_sx ":action" b)) defs).
    intros [<-|I]; [now exists b|exact (IH _ _ I)].
  - change (places o (section_sx ":derived" b :: defs)) with (Der o (section_sx ":derived" b) :: places o defs).
    intros [<-|I]; [now exists b|exact (IH _ _ I)].
Qed.
Lemma read_kind st p : match p with Act x => action_sect x | Der _ x => derived_sect x end -> forall y, read st p = Ok y ->
  match p, y with Act _, inl _ | Der _ _, inr _ => True | _, _ => False end.
Proof.
  destruct p as [x|o x]; intros (b & ->) y H; cbn [read] in H;
    match type of H with snd ?e = _ => destruct e as [s r] eqn:E end; cbn [snd] in H; subst r;
    apply structure_def_st in E as [(b' & a' & B & -> & _)|(b' & a' & B & -> & _)]; try exact Logic.I; discriminate.
Qed.

Lemma map_Ok_In {A B} (f : A -> res B) l ys y : map f l = map Ok ys -> (In y ys <-> exists x, In x l /\ f x = Ok y).
Proof.
  intros H. split.
  - intros I. apply (in_map Ok) in I. rewrite <- H in I. apply in_map_iff in I as (x & E & I). eauto.
  - intros (x & I & E). apply (in_map f) in I. rewrite H, E in I. apply in_map_iff in I as (z & [= <-] & I). exact I.
Qed.
Lemma actions_in_In ys a : In a (actions_in ys) <-> In (inl a) ys.
Proof.
  unfold actions_in. rewrite in_flat_map. split.
  - intros ([b|b] & I & J); [destruct J as [->|[]]; exact I|destruct J].
  - intros I. exists (inl a). split; [exact I|now left].
Qed.
Lemma derived_in_In ys a : In a (derived_in ys) <-> In (inr a) ys.
Proof.
  unfold derived_in. rewrite in_flat_map. split.
  - intros ([b|b] & I & J); [destruct J|destruct J as [->|[]]; exact I].
  - intros I. exists (inr a). split; [exact I|now left].
Qed.

(** the actions and derived predicates of an accepted domain are those of its places *)
Lemma accepted_members n r t c p f ys d st1 defs : Forall definition defs ->
  map (read st1) (places None defs) = map Ok ys ->
  mk_domain n r t c p (derived_in ys) f (actions_in ys) = Ok d ->
  (forall a, has_action d a <-> exists x, In x defs /\ action_sect x /\ action_eqb a (act_of (read st1 (Act x))) = true) /\
  (forall a, has_derived d a <-> exists o x, placed (Der o x) defs /\ derived_eqb a (der_of (read st1 (Der o x))) = true).
Proof.
  intros F Hy Hd. apply mk_domain_inv in Hd as (_ & _ & _ & _ & _ & _ & _ & Kd & _ & Ka & _).
  unfold has_action, has_derived. rewrite Ka, Kd. split; intros a.
  - rewrite (memb_dedup _ action_eqb_equiv), memb_In. split.
    + intros (b & I & E). apply actions_in_In in I. apply (map_Ok_In _ _ _ _ Hy) in I as (q & I & R).
      pose proof (read_kind st1 q (places_sect _ F _ _ I) _ R) as K. destruct q as [x|o x]; [|destruct K].
      pose proof (places_sect _ F _ _ I) as A. pose proof (places_placed defs F [] None (la_none _ (Forall_nil _)) _ I) as P.
      cbn [app] in P. inversion P as [y ds I' A' e1|]; subst. exists x. rewrite R. cbn [act_of]. auto.
    + intros (x & I & A & E). assert (P : In (Act x) (places None defs)) by (apply placed_places; [exact F|now apply p_act]).
      assert (J : In (read st1 (Act x)) (map Ok ys)) by (rewrite <- Hy; now apply in_map).
      apply in_map_iff in J as (y & E' & J). symmetry in E'. pose proof (read_kind st1 (Act x) (places_sect _ F _ _ P) _ E') as K.
      destruct y as [b|b]; [|destruct K]. exists b. split; [now apply actions_in_In|]. rewrite E' in E. exact E.
  - rewrite (memb_dedup _ derived_eqb_equiv), memb_In. split.
    + intros (b & I & E). apply derived_in_In in I. apply (map_Ok_In _ _ _ _ Hy) in I as (q & I & R).
      pose proof (read_kind st1 q (places_sect _ F _ _ I) _ R) as K. destruct q as [x|o x]; [destruct K|].
      pose proof (places_placed defs F [] None (la_none _ (Forall_nil _)) _ I) as P.
      exists o, x. rewrite R. cbn [der_of]. auto.
    + intros (o & x & P & E). apply (placed_places _ _ F) in P.
      assert (J : In (read st1 (Der o x)) (map Ok ys)) by (rewrite <- Hy; now apply in_map).
      apply in_map_iff in J as (y & E' & J). symmetry in E'. pose proof (read_kind st1 (Der o x) (places_sect _ F _ _ P) _ E') as K.
      destruct y as [b|b]; [destruct K|]. exists b. split; [now apply derived_in_In|]. rewrite E' in E. exact E.
Qed.

Definition header_ctx (rq cs : option (list sexp)) : dstate :=
  mkD (match cs with None => [] | Some l => match objects_section l with Ok d => d | _ => [] end end) [] []
      (match rq with None => [] | Some l => match require_keys l with Ok ks => extend_reqs ks | _ => [] end end) None.
Lemma actions_apart rq cs : exists act : sexp -> action, forall s n ty ps fs defs d,
  domain_text s n (declarations rq ty cs ps fs ++ defs) -> Forall definition defs -> parse_domain_fresh s = Ok d ->
  forall a, has_action d a <-> exists x, In x defs /\ action_sect x /\ action_eqb a (act x) = true.
Proof.
  exists (fun x => act_of (read (header_ctx rq cs) (Act x))). intros s n ty ps fs defs d T F H a.
  apply (accepted_iff _ _ _ _ _ _ _ _ T F) in H as (st1 & r & t & c & p & f & ys & Hh & Hf & Hy & Hd).
  destruct (accepted_members _ _ _ _ _ _ _ _ _ _ F Hy Hd) as [A _]. rewrite (A a).
  assert (E : forall x, action_sect x -> read st1 (Act x) = read (header_ctx rq cs) (Act x)).
  { intros x (b & ->). apply header_state in Hh as (E1 & E2 & _). cbn [read]. apply action_result.
    split; [exact E2|exact E1]. }
  split; intros (x & I & B & C); exists x; split; auto; split; auto; [rewrite <- (E x B)|rewrite (E x B)]; exact C.
Qed.
Lemma derived_apart rq ty cs ps : exists der : option sexp -> sexp -> derived, forall s n fs defs d,
  domain_text s n (declarations rq ty cs ps fs ++ defs) -> Forall definition defs -> parse_domain_fresh s = Ok d ->
  forall p, has_derived d p <-> exists o x, placed (Der o x) defs /\ derived_eqb p (der o x) = true.
Proof.
  exists (fun o x => der_of (read (fst (header rq ty cs ps init_dstate)) (Der o x))). intros s n fs defs d T F H a.
  apply (accepted_iff _ _ _ _ _ _ _ _ T F) in H as (st1 & r & t & c & p & f & ys & Hh & Hf & Hy & Hd).
  destruct (accepted_members _ _ _ _ _ _ _ _ _ _ F Hy Hd) as [_ A]. rewrite (A a). rewrite Hh. reflexivity.
Qed.
