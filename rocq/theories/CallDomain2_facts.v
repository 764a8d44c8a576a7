(** What the tree of a whole domain is worth. *)
From Coq Require Import String Ascii List Bool NArith Arith Lia.
From Verif Require Import Py Names Reqs Logic Validation Core Lexer TypedList UpdateTags Parser Py_facts Names_facts Lex_facts
     GD_facts Spec_Grammar Words_facts Grammar_facts GrammarText_facts GrammarAll_facts Lark Spec_Lark LarkMain_facts Callbacks CallTree_facts CallForm_facts CallLists_facts CallEffect_facts CallDomain_facts.
Import ListNotations.
Open Scope string_scope.
Open Scope list_scope.

(** * Optional sections *)
Definition sec (k : string) (o : option (list sexp)) : list sexp := match o with Some body => [SList (SAtom (TKw k) :: body)] | None => [] end.
Definition starts (ks : list string) (l : list sexp) : Prop := match l with [] => True | s :: _ => exists k body, s = SList (SAtom (TKw k) :: body) /\ In k ks end.
Lemma section_read k ks o l : starts ks l -> ~ In k ks -> section k (sec k o ++ l) = (o, l).
Proof.
  intros H Nk. destruct o as [body|]; cbn [sec app section is_kw]; [now rewrite String.eqb_refl|]. destruct l as [|s l]; [reflexivity|]. destruct H as (k' & body & -> & I'). cbn [section is_kw].
  destruct (String.eqb k k') eqn:E; [|reflexivity]. apply String.eqb_eq in E as ->. contradiction.
Qed.
Lemma starts_sec k ks o l : starts ks l -> starts (k :: ks) (sec k o ++ l).
Proof. destruct o; cbn [sec app starts]; [intros _; repeat eexists; cbn; auto|]. destruct l as [|s l]; cbn; [auto|]. intros (k' & body & -> & I'). repeat eexists. auto. Qed.
Definition optv {A} (name : string) (g : A -> value) (o : option A) : value := match o with Some a => VKw name (g a) | None => VNone end.
Lemma opt_section_tree {A} n k name (f : list sexp -> M A) (g : A -> value) c u nx :
  (forall p w nx, TT (N n) [p] w nx -> exists body, sx w (SList (SAtom (TKw k) :: body)) /\ forall st, DV p st = liftM (fun a => VKw name (g a)) (f body st)) ->
  TT (Opt (N n)) c u nx ->
  exists o, sxl u (sec k o) /\ forall st, DVS c st = (fst (optM f o st), let* a := snd (optM f o st) in Ok [optv name g a]).
Proof.
  intros F H. apply t_opt in H as [[-> ->]|H].
  - exists None. split; [apply sxl_nil|]. reflexivity.
  - trule1 H. destruct (F _ _ _ H) as (body & S1 & V1). exists (Some body). split; [now apply sxl_one|]. intros st. cbn [visits optM]. rewrite V1. unfold bindM, ret, liftM. destruct (f body st) as [st' [a|e]]; reflexivity.
Qed.
Lemma structures_tree cs w nx : many (N "structure_def") cs w nx -> exists l, sxl w l /\ starts [":action"; ":derived"] l /\
  forall st, DVS cs st = (fst (mapM structure_def l st), let* xs := snd (mapM structure_def l st) in Ok (map sval xs)).
Proof.
  induction 1 as [nx|c1 c2 u v nx H _ (l & S1 & _ & V1)].
  - exists []. split; [apply sxl_nil|]. split; [exact I|]. reflexivity.
  - trule1 H. apply structure_tree in H as (s & S2 & V2 & k & b & -> & I'). eexists. split; [apply sxl_cons; [exact S2|exact S1]|]. split; [repeat eexists; auto|].
    intros st. cbn [app visits mapM]. rewrite V2. unfold bindM, ret, liftM. destruct (structure_def _ st) as [st1 [x2|e]]; [|reflexivity]. cbn [fst snd bind]. rewrite V1.
    destruct (mapM structure_def l st1) as [st2 [xs|e]]; reflexivity.
Qed.

(** * The callback of the whole domain *)
Definition acts_of (xs : list (action + derived)) := flat_map (fun x => match x with inl a => [a] | inr _ => [] end) xs.
Definition dps_of (xs : list (action + derived)) := flat_map (fun x => match x with inl _ => [] | inr d => [d] end) xs.
Lemma sections_structures xs kws acts dps : Callbacks.sections (map sval xs) kws acts dps = Ok (kws, acts ++ acts_of xs, dps ++ dps_of xs).
Proof.
  revert acts dps. induction xs as [|[a|d] xs IH]; intros acts dps; cbn [map Callbacks.sections sval acts_of dps_of flat_map app]; [now rewrite !app_nil_r| |]; rewrite IH, <- app_assoc; reflexivity.
Qed.
Lemma consts_back cs : mapR (fun v => let* t := as_term v in Ok (const_of t)) (map (fun c => VTerm (const_term c)) cs) = Ok cs.
Proof. induction cs as [|[n t] cs IH]; [reflexivity|]. cbn [map mapR]. rewrite IH. reflexivity. Qed.
Lemma not_none_app a b : not_none (a ++ b) = not_none a ++ not_none b.
Proof. apply filter_app. Qed.
Lemma not_none_sval xs : not_none (map sval xs) = map sval xs.
Proof. induction xs as [|[a|d] xs IH]; [reflexivity| |]; cbn [map not_none filter sval]; f_equal; exact IH. Qed.
Definition vconsts (cs : list const) : value := VList (map (fun c => VTerm (const_term c)) cs).
Definition vpreds (ps : list atom) : value := VList (map vpred ps).
Lemma domain_called n (rs : option (list req)) (ty : option types_dict) (cs : option (list const)) (ps : option (list atom)) (fs : option functions_dict) xs st :
  cb_domain (VTok "(" :: VTok "define" :: VKw "name" (VTok n) ::
             [optv "requirements" VReqs rs] ++ [optv "types" VNames ty] ++ [optv "constants" vconsts cs] ++ [optv "predicates" vpreds ps] ++ [optv "functions" VFuns fs] ++ map sval xs ++ [VTok ")"]) st
  = (set_types None st, let* d := mk_domain n (opt_list rs) ty (opt_list cs) (opt_list ps) (dps_of xs) (opt_list fs) (acts_of xs) in Ok (VDomain d)).
Proof.
  assert (I1 : forall a b l c, inner (a :: b :: l ++ [c]) = l) by (intros; apply inner_list).
  unfold cb_domain. 
  assert (E : not_none (VTok "(" :: VTok "define" :: VKw "name" (VTok n) ::
             [optv "requirements" VReqs rs] ++ [optv "types" VNames ty] ++ [optv "constants" vconsts cs] ++ [optv "predicates" vpreds ps] ++ [optv "functions" VFuns fs] ++ map sval xs ++ [VTok ")"])
     = VTok "(" :: VTok "define" :: ((VKw "name" (VTok n) :: not_none [optv "requirements" VReqs rs] ++ not_none [optv "types" VNames ty] ++ not_none [optv "constants" vconsts cs] ++ not_none [optv "predicates" vpreds ps] ++ not_none [optv "functions" VFuns fs]) ++ map sval xs) ++ [VTok ")"]).
  { change (not_none (VTok "(" :: VTok "define" :: VKw "name" (VTok n) :: ?l)) with (VTok "(" :: VTok "define" :: VKw "name" (VTok n) :: not_none l).
    rewrite !not_none_app, not_none_sval. cbn [app]. now rewrite <- !app_assoc. }
  rewrite E, I1. clear E I1.
  destruct rs as [rs|], ty as [ty|], cs as [cs|], ps as [ps|], fs as [fs|]; cbn [not_none filter optv app Callbacks.sections dict_set String.eqb Ascii.eqb Bool.eqb];
    rewrite sections_structures; cbn [app kw dict_get String.eqb Ascii.eqb Bool.eqb kw_str as_str bind kw_reqs kw_types kw_consts kw_preds kw_funs vconsts vpreds opt_list]; rewrite ?consts_back, ?preds_back; reflexivity.
Qed.

(** * The whole domain *)
Theorem domain_worth p w nx : TT (N "domain") [p] w nx -> exists s, sx w s /\ forall st, DV p st = liftM VDomain (parse_domain_sexp [s] st).
Proof.
  intros H. trule H. inversion Ec; subst. tseq H. subst. rewrite app_nil_r. cbn [app].
  trule K. subst. tseq K. subst.
  apply (opt_section_tree "requirements" ":requirements" "requirements" requirements VReqs) in K0 as (o1 & S1 & V1).
  2:{ intros p w' nx' H. apply reqs_tree in H as (b & X & _ & Y). eauto. }
  apply (opt_section_tree "types" ":types" "types" types_section VNames) in K1 as (o2 & S2 & V2); [|apply types_tree].
  apply (opt_section_tree "constants" ":constants" "constants" constants_section vconsts) in K2 as (o3 & S3 & V3); [|apply consts_tree].
  apply (opt_section_tree "predicates" ":predicates" "predicates" predicates_section vpreds) in K3 as (o4 & S4 & V4); [|apply preds_tree].
  apply (opt_section_tree "functions" ":functions" "functions" (fun l => ret (functions_section l)) VFuns) in K4 as (o5 & S5 & V5); [|apply funs_tree].
  apply t_star in K5. apply structures_tree in K5 as (l & S6 & St & V6).
  exists (SList (SAtom (TWord "define") :: SList [SAtom (TWord "domain"); SAtom (TWord x)] :: sec ":requirements" o1 ++ sec ":types" o2 ++ sec ":constants" o3 ++ sec ":predicates" o4 ++ sec ":functions" o5 ++ l)).
  split; [sxs|].
  intros st. cbn [parse_domain_sexp String.eqb Ascii.eqb Bool.eqb andb]. unfold domain_rule.
  pose proof (starts_sec ":functions" _ o5 _ St) as St5. pose proof (starts_sec ":predicates" _ o4 _ St5) as St4. pose proof (starts_sec ":constants" _ o3 _ St4) as St3. pose proof (starts_sec ":types" _ o2 _ St3) as St2.
  rewrite (section_read ":requirements" _ o1 _ St2), (section_read ":types" _ o2 _ St3), (section_read ":constants" _ o3 _ St4), (section_read ":predicates" _ o4 _ St5), (section_read ":functions" _ o5 _ St)
    by (cbn; intros F; repeat destruct F as [F|F]; try discriminate; exact F).
  rewrite visit_node. cbn [visits]. rewrite !V_leaf. cbn beta iota.
  cbn [app visits]. match goal with |- context [DV (PNode ?a ?b) st] => change (DV (PNode a b) st) with (st, Ok (VKw "name" (VTok x))) end. cbn beta iota. rewrite visits_app, V1. unfold bindM, liftM. destruct (optM requirements o1 st) as [st1 [r1|e]]; [|reflexivity]. cbn [fst snd bind].
  rewrite visits_app, V2. destruct (optM types_section o2 st1) as [st2 [r2|e]]; [|reflexivity]. cbn [fst snd bind].
  rewrite visits_app, V3. destruct (optM constants_section o3 st2) as [st3 [r3|e]]; [|reflexivity]. cbn [fst snd bind].
  rewrite visits_app, V4. destruct (optM predicates_section o4 st3) as [st4 [r4|e]]; [|reflexivity]. cbn [fst snd bind].
  rewrite visits_app, V5. destruct (optM _ o5 st4) as [st5 [r5|e]]; [|reflexivity]. cbn [fst snd bind].
  rewrite visits_app, V6. destruct (mapM structure_def l st5) as [st6 [xs|e]]; [|reflexivity]. cbn [fst snd bind visits]. rewrite V_leaf. cbn beta iota.
  rewrite call_plain by reflexivity. change (domain_callback "domain") with cb_domain. rewrite domain_called. reflexivity.
Qed.
