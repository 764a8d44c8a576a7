(** Reusing a parser object (C34). *)
From Coq Require Import String List Bool.
From Verif Require Import Py Names Reqs Logic Validation Core Lexer TypedList UpdateTags Parser.
From Verif Require Import Py_facts Spec_Parse Domain_facts.
Import ListNotations.
Open Scope string_scope.
Open Scope list_scope.

(** the same attributes, parameters of the last action apart *)
Definition same_but_params (a b : dstate) : Prop :=
  s_constants a = s_constants b /\ s_predicates a = s_predicates b /\ s_ext a = s_ext b
  /\ s_types a = s_types b.

Lemma bindM_snd {A B} (m : M A) (k : A -> M B) st :
  snd (bindM m k st) = match snd (m st) with Ok a => snd (k a (fst (m st))) | Err e => Err e end.
Proof. unfold bindM. destruct (m st) as [st' [a|e]]; reflexivity. Qed.

Lemma set_params_same a b v : same_but_params a b -> set_params v a = set_params v b.
Proof. intros (H1 & H2 & H3 & H4). unfold set_params. now rewrite H1, H2, H3, H4. Qed.

Lemma action_parameters_same l a b : same_but_params a b ->
  snd (action_parameters l a) = snd (action_parameters l b)
  /\ (forall vs, snd (action_parameters l a) = Ok vs ->
      fst (action_parameters l a) = fst (action_parameters l b)).
Proof.
  intros S. unfold action_parameters, bindM, ret, modify.
  destruct (typed_list_variable l) as [tl|]; [|split; [reflexivity|discriminate]].
  destruct (mk_vars tl) as [vars|]; [|split; [reflexivity|discriminate]].
  cbn [fst snd]. split; auto. intros _ _. now apply set_params_same.
Qed.
Lemma action_def_same l a b : same_but_params a b ->
  snd (action_def l a) = snd (action_def l b)
  /\ (forall x, snd (action_def l a) = Ok x -> fst (action_def l a) = fst (action_def l b)).
Proof.
  intros S. unfold action_def.
  destruct l as [|[[]|] [|k [|[|ps] body]]]; try (split; [reflexivity|discriminate]).
  destruct (is_kw ":parameters" k); [|split; [reflexivity|discriminate]].
  destruct (action_parameters_same ps a b S) as [E1 E2].
  unfold bindM. destruct (action_parameters ps a) as [a' ra], (action_parameters ps b) as [b' rb].
  cbn [fst snd] in *. subst rb. destruct ra as [vs|e]; [|split; [reflexivity|discriminate]].
  rewrite (E2 vs eq_refl). auto.
Qed.

Definition is_derived (s : sexp) : bool :=
  match s with SList (k :: _) => is_kw ":derived" k | _ => false end.
Lemma is_derived_not_action k : is_kw ":derived" k = true -> is_kw ":action" k = false.
Proof.
  destruct k as [[]|]; try discriminate. unfold is_kw. intros H. apply String.eqb_eq in H.
  subst. reflexivity.
Qed.

Lemma mapM_same l a b : same_but_params a b ->
  match l with x :: _ => is_derived x = false \/ s_params a = s_params b | [] => True end ->
  snd (mapM structure_def l a) = snd (mapM structure_def l b).
Proof.
  intros S. destruct l as [|x l]; [reflexivity|]. intros [D|P].
  - cbn [mapM]. rewrite !bindM_snd.
    assert (G : snd (structure_def x a) = snd (structure_def x b)
      /\ (forall y, snd (structure_def x a) = Ok y ->
          fst (structure_def x a) = fst (structure_def x b))).
    { unfold structure_def. destruct x as [|[|k body]]; try (split; [reflexivity|discriminate]).
      cbn [is_derived] in D. rewrite D. destruct (is_kw ":action" k); [|split; [reflexivity|discriminate]].
      destruct (action_def_same body a b S) as [E1 E2]. unfold bindM, ret.
      destruct (action_def body a) as [a' ra], (action_def body b) as [b' rb].
      cbn [fst snd] in *. subst rb. destruct ra as [y|e]; cbn [fst snd]; [|split; [reflexivity|discriminate]].
      rewrite (E2 y eq_refl). auto. }
    destruct G as [G1 G2]. rewrite <- G1.
    destruct (snd (structure_def x a)) as [y|e] eqn:E; [|reflexivity].
    rewrite (G2 y eq_refl). reflexivity.
  - assert (a = b); [|now subst].
    destruct S as (S1 & S2 & S3 & S4), a, b. cbn in *. congruence.
Qed.

(** ** one section *)
Definition has_section (k : string) (l : list sexp) : bool :=
  match fst (section k l) with Some _ => true | None => false end.

(** the structure definitions that follow the optional sections *)
Definition after_sections (l0 : list sexp) : list sexp :=
  snd (section ":functions" (snd (section ":predicates" (snd (section ":constants"
    (snd (section ":types" (snd (section ":requirements" l0))))))))).

(** the sections a text has, in the order of the grammar *)
Definition requirements_given (l0 : list sexp) : bool := has_section ":requirements" l0.
Definition constants_given (l0 : list sexp) : bool :=
  has_section ":constants" (snd (section ":types" (snd (section ":requirements" l0)))).
Definition predicates_given (l0 : list sexp) : bool :=
  has_section ":predicates" (snd (section ":constants" (snd (section ":types"
    (snd (section ":requirements" l0)))))).

(** the attribute [f] is the same after the section if it was before, or if the section sets it *)
Lemma domain_rule_same n l0 a b :
  s_types a = s_types b ->
  (requirements_given l0 = true \/ s_ext a = s_ext b) ->
  (constants_given l0 = true \/ s_constants a = s_constants b) ->
  (predicates_given l0 = true \/ s_predicates a = s_predicates b) ->
  match after_sections l0 with
  | x :: _ => is_derived x = false \/ s_params a = s_params b
  | [] => True
  end ->
  snd (domain_rule n l0 a) = snd (domain_rule n l0 b).
Proof.
  unfold domain_rule, requirements_given, constants_given, predicates_given, after_sections,
    has_section.
  intros T R C P D.
  destruct (section ":requirements" l0) as [o1 l1]. cbn [fst snd] in *.
  destruct (section ":types" l1) as [o2 l2]. cbn [fst snd] in *.
  destruct (section ":constants" l2) as [o3 l3]. cbn [fst snd] in *.
  destruct (section ":predicates" l3) as [o4 l4]. cbn [fst snd] in *.
  destruct (section ":functions" l4) as [o5 l5]. cbn [fst snd] in *.
  (* requirements *)
  rewrite !bindM_snd.
  assert (R1 : snd (optM requirements o1 a) = snd (optM requirements o1 b)).
  { destruct o1 as [l|]; [|reflexivity]. cbn [optM]. rewrite !bindM_snd.
    unfold requirements. rewrite !bindM_snd. cbn [ret fst snd].
    destruct (require_keys l); reflexivity. }
  rewrite <- R1. destruct (snd (optM requirements o1 a)) as [rs|] eqn:E1; [|reflexivity].
  assert (S1 : let a1 := fst (optM requirements o1 a) in let b1 := fst (optM requirements o1 b) in
    s_types a1 = s_types b1 /\ s_ext a1 = s_ext b1 /\ s_constants a1 = s_constants a
    /\ s_constants b1 = s_constants b /\ s_predicates a1 = s_predicates a
    /\ s_predicates b1 = s_predicates b /\ s_params a1 = s_params a /\ s_params b1 = s_params b).
  { destruct o1 as [l|]; cbn [optM].
    - unfold bindM, requirements, bindM, ret, modify in *. cbn [optM] in E1.
      unfold bindM, ret, modify in E1.
      destruct (require_keys l) as [ks|]; [|discriminate]. cbn. intuition.
    - cbn. destruct R as [R|R]; [discriminate|]. intuition. }
  cbn zeta in S1. destruct S1 as (T1 & R' & Ca & Cb & Pa & Pb & Qa & Qb).
  rewrite <- Ca, <- Cb in C. rewrite <- Pa, <- Pb in P. rewrite <- Qa, <- Qb in D.
  clear T R R1 E1 Ca Cb Pa Pb Qa Qb.
  set (a1 := fst (optM requirements o1 a)) in *. set (b1 := fst (optM requirements o1 b)) in *.
  clearbody a1 b1. clear a b. rename a1 into a, b1 into b.
  (* types *)
  rewrite !bindM_snd.
  assert (R1 : snd (optM types_section o2 a) = snd (optM types_section o2 b)).
  { destruct o2 as [l|]; [|reflexivity].
    unfold optM, types_section, bindM, ret, reads, modify.
    destruct (typed_list_name l); [|reflexivity]. rewrite R', T1.
    destruct (check _ _); [|reflexivity]. destruct (check _ _); reflexivity. }
  rewrite <- R1. destruct (snd (optM types_section o2 a)) as [ty|] eqn:E1; [|reflexivity].
  assert (S1 : let a1 := fst (optM types_section o2 a) in let b1 := fst (optM types_section o2 b) in
    s_types a1 = s_types b1 /\ s_ext a1 = s_ext b1 /\ s_constants a1 = s_constants a
    /\ s_constants b1 = s_constants b /\ s_predicates a1 = s_predicates a
    /\ s_predicates b1 = s_predicates b /\ s_params a1 = s_params a /\ s_params b1 = s_params b).
  { destruct (optM types_section o2 a) as [a1 ra] eqn:Ea.
    destruct (optM types_section o2 b) as [b1 rb] eqn:Eb. cbn [fst snd] in *.
    subst ra rb. apply optM_Ok in Ea. apply optM_Ok in Eb. destruct o2 as [l|].
    - destruct Ea as (da & Ea & ->). destruct Eb as (db & Eb & X). injection X as ->.
      apply types_st in Ea as [-> _]. apply types_st in Eb as [-> _]. cbn. intuition.
    - destruct Ea as [-> _], Eb as [-> _]. intuition. }
  cbn zeta in S1. destruct S1 as (T2 & R2 & Ca & Cb & Pa & Pb & Qa & Qb).
  rewrite <- Ca, <- Cb in C. rewrite <- Pa, <- Pb in P. rewrite <- Qa, <- Qb in D.
  clear T1 R' R1 E1 Ca Cb Pa Pb Qa Qb.
  set (a1 := fst (optM types_section o2 a)) in *. set (b1 := fst (optM types_section o2 b)) in *.
  clearbody a1 b1. clear a b. rename a1 into a, b1 into b.
  (* constants *)
  rewrite !bindM_snd.
  assert (R1 : snd (optM constants_section o3 a) = snd (optM constants_section o3 b)).
  { destruct o3 as [l|]; [|reflexivity]. cbn [optM]. rewrite !bindM_snd.
    unfold constants_section. rewrite !bindM_snd. cbn [ret fst snd].
    destruct (typed_list_name l); [|reflexivity]. rewrite !bindM_snd. cbn [ret fst snd].
    destruct (constants_by_name _); reflexivity. }
  rewrite <- R1. destruct (snd (optM constants_section o3 a)) as [cs|] eqn:E1; [|reflexivity].
  assert (S1 : let a1 := fst (optM constants_section o3 a) in
    let b1 := fst (optM constants_section o3 b) in
    s_types a1 = s_types b1 /\ s_ext a1 = s_ext b1 /\ s_constants a1 = s_constants b1
    /\ s_predicates a1 = s_predicates a
    /\ s_predicates b1 = s_predicates b /\ s_params a1 = s_params a /\ s_params b1 = s_params b).
  { destruct (optM constants_section o3 a) as [a1 ra] eqn:Ea.
    destruct (optM constants_section o3 b) as [b1 rb] eqn:Eb. cbn [fst snd] in *.
    subst ra rb. apply optM_Ok in Ea. apply optM_Ok in Eb. destruct o3 as [l|].
    - destruct Ea as (da & Ea & ->). destruct Eb as (db & Eb & X). injection X as ->.
      apply constants_st in Ea as (d1 & O1 & -> & _). apply constants_st in Eb as (d2 & O2 & -> & _).
      cbn. assert (d1 = d2) by congruence. subst. intuition.
    - destruct Ea as [-> _], Eb as [-> _]. destruct C as [C|C]; [discriminate|]. intuition. }
  cbn zeta in S1. destruct S1 as (T1 & R' & C1 & Pa & Pb & Qa & Qb).
  rewrite <- Pa, <- Pb in P. rewrite <- Qa, <- Qb in D.
  clear T2 R2 C R1 E1 Pa Pb Qa Qb.
  set (a1 := fst (optM constants_section o3 a)) in *. set (b1 := fst (optM constants_section o3 b)) in *.
  clearbody a1 b1. clear a b. rename a1 into a, b1 into b.
  (* predicates *)
  rewrite !bindM_snd.
  assert (R1 : snd (optM predicates_section o4 a) = snd (optM predicates_section o4 b)).
  { destruct o4 as [l|]; [|reflexivity]. cbn [optM]. rewrite !bindM_snd.
    unfold predicates_section. rewrite !bindM_snd. cbn [ret fst snd].
    destruct (match l with [] => _ | _ => _ end); reflexivity. }
  rewrite <- R1. destruct (snd (optM predicates_section o4 a)) as [ps|] eqn:E1; [|reflexivity].
  assert (S1 : let a1 := fst (optM predicates_section o4 a) in
    let b1 := fst (optM predicates_section o4 b) in
    same_but_params a1 b1 /\ s_params a1 = s_params a /\ s_params b1 = s_params b).
  { destruct (optM predicates_section o4 a) as [a1 ra] eqn:Ea.
    destruct (optM predicates_section o4 b) as [b1 rb] eqn:Eb. cbn [fst snd] in *.
    subst ra rb. apply optM_Ok in Ea. apply optM_Ok in Eb. unfold same_but_params.
    destruct o4 as [l|].
    - destruct Ea as (da & Ea & ->). destruct Eb as (db & Eb & X). injection X as ->.
      apply predicates_st in Ea as (_ & O1 & ->). apply predicates_st in Eb as (_ & O2 & ->).
      cbn. intuition.
    - destruct Ea as [-> _], Eb as [-> _]. destruct P as [P|P]; [discriminate|]. intuition. }
  cbn zeta in S1. destruct S1 as (S1 & Qa & Qb). rewrite <- Qa, <- Qb in D.
  clear T1 R' C1 P R1 E1 Qa Qb.
  set (a1 := fst (optM predicates_section o4 a)) in *. set (b1 := fst (optM predicates_section o4 b)) in *.
  clearbody a1 b1. clear a b. rename a1 into a, b1 into b.
  (* functions *)
  rewrite !bindM_snd.
  assert (F : forall st, fst (optM (fun l => ret (functions_section l)) o5 st) = st).
  { intros st. destruct o5 as [l|]; [|reflexivity]. cbn [optM]. unfold bindM, ret.
    destruct (functions_section l); reflexivity. }
  assert (R1 : snd (optM (fun l => ret (functions_section l)) o5 a)
             = snd (optM (fun l => ret (functions_section l)) o5 b)).
  { destruct o5 as [l|]; [|reflexivity]. cbn [optM]. rewrite !bindM_snd. cbn [ret fst snd].
    destruct (functions_section l); reflexivity. }
  rewrite <- R1, !F. destruct (snd (optM _ o5 a)) as [fs|]; [|reflexivity].
  (* definitions *)
  rewrite !bindM_snd, (mapM_same l5 a b S1 D).
  destruct (snd (mapM structure_def l5 b)); [|reflexivity]. reflexivity.
Qed.

Lemma parse_domain_same s a b :
  s_types a = s_types b ->
  (forall n l0, domain_text s n l0 ->
    (requirements_given l0 = true \/ s_ext a = s_ext b)
    /\ (constants_given l0 = true \/ s_constants a = s_constants b)
    /\ (predicates_given l0 = true \/ s_predicates a = s_predicates b)
    /\ match after_sections l0 with
       | x :: _ => is_derived x = false \/ s_params a = s_params b
       | [] => True
       end) ->
  snd (parse_domain s a) = snd (parse_domain s b).
Proof.
  intros T H. unfold parse_domain, domain_text in *. destruct (read_text s) as [l|]; [|reflexivity].
  unfold parse_domain_sexp.
  destruct l as [|x l]; try reflexivity. destruct x as [|x]; try reflexivity.
  destruct x as [|k1 x]; try reflexivity. destruct k1 as [k1|]; try reflexivity.
  destruct k1; try reflexivity.
  destruct x as [|x1 secs]; try reflexivity. destruct x1 as [|x1]; try reflexivity.
  destruct x1 as [|k2 x1]; try reflexivity. destruct k2 as [k2|]; try reflexivity.
  destruct k2; try reflexivity.
  destruct x1 as [|n x1]; try reflexivity. destruct n as [n|]; try reflexivity.
  destruct n; try reflexivity. destruct x1; try reflexivity. destruct l; try reflexivity.
  destruct (String.eqb_spec s0 "define") as [->|]; cbn [andb]; [|reflexivity].
  destruct (String.eqb_spec s1 "domain") as [->|]; [|reflexivity].
  destruct (H s2 secs eq_refl) as (R & C & P & D). now apply domain_rule_same.
Qed.

(** a history of calls *)
Definition after_calls (h : list string) (st : dstate) : dstate :=
  fold_left (fun st s => fst (parse_domain s st)) h st.
Fixpoint all_succeed (h : list string) (st : dstate) : Prop :=
  match h with
  | [] => True
  | s :: h' => (exists d, snd (parse_domain s st) = Ok d) /\ all_succeed h' (fst (parse_domain s st))
  end.
Lemma success_types s st st' d : parse_domain s st = (st', Ok d) -> s_types st' = None.
Proof.
  intros H. apply parse_domain_inv in H as (n & l0 & _ & H).
  apply domain_rule_inv in H as (o1 & l1 & st1 & rs & o2 & l2 & st2 & ty & o3 & l3 & st3 & cs & o4
    & l4 & st4 & ps & o5 & l5 & fs & st6 & xs & _ & _ & _ & _ & _ & _ & _ & _ & _ & _ & _ & -> & _).
  reflexivity.
Qed.
Lemma all_succeed_types h : forall st, all_succeed h st -> s_types st = None ->
  s_types (after_calls h st) = None.
Proof.
  induction h as [|s h IH]; intros st A T; [exact T|]. destruct A as [(d & D) A].
  apply IH; auto. destruct (parse_domain s st) as [st' r] eqn:E. cbn [snd] in D. subst r.
  now apply success_types in E.
Qed.

Lemma parse_problem_same s objs :
  (forall n d l0, problem_text s n d l0 ->
     has_section ":objects" (snd (section ":requirements" l0)) = true) ->
  parse_problem_from objs s = parse_problem s.
Proof.
  unfold parse_problem, parse_problem_from, problem_text. destruct (read_text s) as [l|]; [|reflexivity].
  intros H. unfold parse_problem_sexp.
  destruct l as [|x l]; try reflexivity. destruct x as [|x]; try reflexivity.
  destruct x as [|k1 x]; try reflexivity. destruct k1 as [k1|]; try reflexivity.
  destruct k1; try reflexivity.
  destruct x as [|x1 x]; try reflexivity. destruct x1 as [|x1]; try reflexivity.
  destruct x1 as [|k2 x1]; try reflexivity. destruct k2 as [k2|]; try reflexivity.
  destruct k2; try reflexivity.
  destruct x1 as [|n x1]; try reflexivity. destruct n as [n|]; try reflexivity.
  destruct n; try reflexivity. destruct x1; try reflexivity.
  destruct x as [|x2 secs]; try reflexivity. destruct x2 as [|x2]; try reflexivity.
  destruct x2 as [|k3 x2]; try reflexivity. destruct x2 as [|dn x2]; try reflexivity.
  destruct dn as [dn|]; try reflexivity. destruct dn; try reflexivity.
  destruct x2; try reflexivity. destruct l; try reflexivity.
  destruct (String.eqb_spec s0 "define") as [->|]; cbn [andb]; [|reflexivity].
  destruct (String.eqb_spec s1 "problem") as [->|]; cbn [andb]; [|reflexivity].
  destruct (is_kw ":domain" k3) eqn:K; [|reflexivity].
  destruct k3 as [[]|]; try discriminate. apply String.eqb_eq in K. subst.
  specialize (H _ _ _ eq_refl). unfold problem_rule, has_section in *.
  destruct (section ":requirements" secs) as [o1 l1]. cbn [fst snd] in *.
  destruct (opt_res require_keys o1); [|reflexivity]. cbn [bind].
  destruct (section ":objects" l1) as [o2 l2]. cbn [fst snd] in *.
  destruct o2 as [ol|]; [|discriminate]. cbn [opt_res].
  destruct (objects_section ol); reflexivity.
Qed.

Lemma full_text_given rs ty cs ps fs defs : starts_with_action defs ->
  let l0 := section_sx ":requirements" rs :: opt_section ":types" ty
            ++ section_sx ":constants" cs :: section_sx ":predicates" ps
            :: opt_section ":functions" fs ++ defs in
  requirements_given l0 = true /\ constants_given l0 = true /\ predicates_given l0 = true
  /\ after_sections l0 = defs.
Proof.
  intros S. cbn zeta. unfold requirements_given, constants_given, predicates_given, after_sections.
  assert (F : snd (section ":functions" (opt_section ":functions" fs ++ defs)) = defs).
  { destruct fs; [reflexivity|]. destruct defs as [|x defs]; [reflexivity|].
    destruct S as (body & ->). reflexivity. }
  destruct ty; cbn; split; auto; split; auto; split; auto; exact F.
Qed.
Lemma starts_not_derived defs (P : Prop) : starts_with_action defs ->
  match defs with x :: _ => is_derived x = false \/ P | [] => True end.
Proof. destruct defs; [auto|]. intros (body & ->). left. reflexivity. Qed.
