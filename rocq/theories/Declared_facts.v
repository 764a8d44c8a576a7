(** The declarations of a parsed text. *)
From Coq Require Import String Ascii List Bool Arith Lia ZArith.
From Verif Require Import Py Names Reqs Logic Validation Core Lexer TypedList UpdateTags Parser.
From Verif Require Import Spec_Core Spec_Parse Spec_Features Spec_Declared.
From Verif Require Import Py_facts Logic_facts Names_facts Order_facts CoreEq_facts Validation_facts
  Core_facts TypedList_facts Parse_facts Derived_facts Domain_facts Derived_facts2 Feature_facts Problem_facts
  Number_facts DomainText_facts Format_facts FormatDomain_facts FormText_facts.
Import ListNotations.
Open Scope string_scope.
Open Scope list_scope.

(** ** keyword tokens *)
Definition kw_ok (t : token) : Prop := match t with TKw s => In s colon_keywords | _ => True end.
Lemma kw_token_ok s : kw_ok (kw_token s).
Proof.
  unfold kw_token. destruct (memb String.eqb s colon_keywords) eqn:M; cbn; auto.
  apply (memb_In String.eqb) in M as (y & I & E). apply String.eqb_eq in E. now subst.
Qed.
Lemma flush_kw q : Forall kw_ok (flush q).
Proof. destruct q; repeat constructor; try exact Logic.I. apply kw_token_ok. Qed.
Lemma start_kw c : Forall kw_ok (snd (start c)).
Proof.
  unfold start. repeat match goal with |- context [if ?b then _ else _] => destruct b end; repeat constructor.
Qed.
Lemma restart_kw q c : Forall kw_ok (snd (restart q c)).
Proof.
  unfold restart. pose proof (start_kw c) as H. destruct (start c) as [q' ts]. apply Forall_app. split; auto using flush_kw.
Qed.
Lemma lex_kw s : forall q, Forall kw_ok (lex_from q s).
Proof.
  induction s as [|c r IH]; intros q; cbn [lex_from]; [apply flush_kw|].
  assert (H : Forall kw_ok (snd (lstep q c))).
  { destruct q; cbn [lstep]; repeat match goal with |- context [if ?b then _ else _] => destruct b end;
      try apply restart_kw; try apply start_kw; repeat constructor. }
  destruct (lstep q c) as [q' ts]. apply Forall_app. auto.
Qed.
Lemma read_text_kw s l x k : read_text s = Some l -> In x l -> atom_in (TKw k) x -> In k colon_keywords.
Proof.
  intros H I N. assert (F : Forall (atoms_ok kw_ok) l).
  { eapply read_from_atoms; [| | |exact H]; [apply lex_kw|constructor|constructor]. }
  rewrite Forall_forall in F. exact (F x I _ N).
Qed.
Lemma req_of_value_Ok v r : req_of_value v = Ok r <-> req_value r = v.
Proof.
  unfold req_of_value. split.
  - destruct (find _ all_reqs) as [x|] eqn:F; [|discriminate]. intros [= <-]. apply find_some in F as [_ F]. now apply String.eqb_eq.
  - intros <-. now destruct r.
Qed.
Lemma require_key_iff s r : (forall k, s = SAtom (TKw k) -> In k colon_keywords) ->
  require_key s = Some r <-> s = req_sx r /\ r <> OBJECT_FLUENTS.
Proof.
  intros K. split.
  - intros H. unfold require_key in H. destruct s as [[]|]; try discriminate. destruct s as [|a v]; [discriminate|].
    assert (a = ":"%char).
    { specialize (K _ eq_refl). cbn in K. repeat (destruct K as [K|K]; [now inversion K|]). destruct K. }
    subst a. destruct (req_of_value v) as [r'|] eqn:R; [|discriminate]. apply req_of_value_Ok in R. subst v.
    destruct r'; try discriminate; injection H as <-; (split; [reflexivity|discriminate]).
  - intros [-> N]. destruct r; try reflexivity. congruence.
Qed.
Lemma mapO_iff {A B} (f : A -> option B) l ys : mapO f l = Some ys <-> Forall2 (fun x y => f x = Some y) l ys.
Proof.
  revert ys. induction l as [|x l IH]; intros ys; cbn [mapO].
  - split; [intros [= <-]; constructor|intros F; inversion F; auto].
  - split.
    + destruct (f x) as [y|] eqn:E; [|discriminate]. destruct (mapO f l) as [zs|]; [|discriminate]. intros [= <-].
      constructor; auto. now apply IH.
    + intros F. inversion F as [|? y ? zs E F']; subst. rewrite E. apply IH in F'. now rewrite F'.
Qed.
Lemma require_keys_In l ks r : (forall k, In (SAtom (TKw k)) l -> In k colon_keywords) ->
  require_keys l = Ok ks -> In r ks <-> In (req_sx r) l.
Proof.
  intros K H. assert (H' : mapO require_key l = Some ks).
  { unfold require_keys in H. destruct l; [discriminate|]. now apply of_opt_Ok' in H. }
  clear H. apply mapO_iff in H'. induction H' as [|x y l ys E F IH]; [tauto|].
  assert (Kx : forall k, x = SAtom (TKw k) -> In k colon_keywords) by (intros k ->; apply K; now left).
  pose proof (proj1 (require_key_iff _ y Kx) E) as [-> N]. cbn.
  rewrite IH by (intros k I; apply K; now right). split; intros [X|X]; auto.
  - left. now subst.
  - left. destruct y, r; try reflexivity; discriminate.
Qed.

(** ** one section of each kind *)
Lemma in_section k o l r body : section k l = (o, r) -> (forall b, ~ In (section_sx k b) r) ->
  In (section_sx k body) l <-> o = Some body.
Proof.
  intros H N. apply section_inv in H. subst l. destruct o as [b|]; cbn.
  - split; [intros [E|E]; [injection E as ->; reflexivity|exfalso; eapply N; eauto]|intros [= ->]; now left].
  - split; [intros E; exfalso; eapply N; eauto|discriminate].
Qed.
Lemma other_section k k' o l r body : section k l = (o, r) -> k <> k' ->
  In (section_sx k' body) l <-> In (section_sx k' body) r.
Proof.
  intros H N. apply section_inv in H. subst l. destruct o as [b|]; cbn; [|tauto].
  split; [intros [E|E]; auto; injection E as E _; congruence|auto].
Qed.
Lemma defs_section l st xs st' k body : mapM structure_def l st = (st', Ok xs) ->
  k <> ":action" -> k <> ":derived" -> ~ In (section_sx k body) l.
Proof.
  intros H N1 N2 I. apply mapM_runs in H.
  destruct (MeaningText_facts.runs_all_inv structure_def (fun _ => True) _ _ _ _ _ H Logic.I ltac:(auto) I)
    as (s & s' & y & _ & _ & F).
  apply structure_def_st in F as [(b & a & E & _)|(b & a & E & _)]; injection E as E _; congruence.
Qed.

(** ** typed lists of names *)
Lemma assigned_one body groups tail n gs : written_names body groups tail -> In (n, gs) (assigned groups tail) ->
  gs = [] \/ exists g, gs = [g].
Proof.
  intros W. induction W as [tail|items g l groups tail N W IH]; unfold assigned in *; cbn [flat_map fst snd app].
  - cbn. intros I. apply in_map_iff in I as (x & [= _ <-] & _). now left.
  - rewrite <- app_assoc. intros I. apply in_app_or in I as [I|I]; auto.
    apply in_map_iff in I as (x & [= _ <-] & _). right. exists g. reflexivity.
Qed.
Lemma typed_names_In body tl n g : typed_list_name body = Ok tl ->
  In (n, g) tl <-> exists groups tail, written_names body groups tail
    /\ In (n, match g with Some t => [t] | None => [] end) (assigned groups tail).
Proof.
  intros H. split.
  - intros I. destruct (proj1 (typed_list_name_iff _ _) H) as (groups & tail & W & -> & _). exists groups, tail. split; auto.
    apply in_map_iff in I as ([n' gs] & [= <- <-] & I). destruct (assigned_one _ _ _ _ _ W I) as [->|(t & ->)]; auto.
  - intros (groups & tail & W & I). destruct (proj1 (typed_list_name_Ok _ _ _ tl W) H) as (-> & _).
    apply in_map_iff. eexists. split; [|exact I]. cbn. now destruct g.
Qed.
Lemma typed_names_NoDup body tl : typed_list_name body = Ok tl -> NoDup (map fst tl).
Proof.
  intros H. destruct (proj1 (typed_list_name_iff _ _) H) as (groups & tail & W & -> & _ & N). rewrite map_map.
  rewrite (map_ext _ fst) by reflexivity. exact N.
Qed.
Lemma objects_In body d n g : objects_section body = Ok d ->
  In (n, g) (map snd d) <-> exists groups tail, written_names body groups tail
    /\ In (n, match g with Some t => [t] | None => [] end) (assigned groups tail).
Proof.
  unfold objects_section. intros H. apply bind_Ok in H as (tl & T & H). rewrite <- (typed_names_In body tl n g T).
  apply typed_names_NoDup in T. unfold constants_by_name in H. apply bind_Ok in H as (cs & M & H). injection H as <-.
  apply mapR_Ok in M.
  assert (E : map snd cs = tl /\ map fst cs = map fst tl).
  { clear T. induction M as [|p x tl cs E M [IH1 IH2]]; [auto|]. apply bind_Ok in E as (k & K & E). injection E as <-.
    apply mk_const_Ok in K as (-> & _). cbn. rewrite IH1, IH2. split; auto. now destruct p. }
  destruct E as [E1 E2]. replace (dict_of_list String.eqb cs) with cs; [now rewrite E1|].
  symmetry. apply dict_of_list_id; [apply string_eqb_equiv|]. apply NoDupE_string. now rewrite E2.
Qed.

(** ** predicates and functions *)
Lemma vars_variables vs tl vars : typed_list_variable vs = Ok tl -> mk_vars tl = Ok vars -> map TVar vars = variables tl.
Proof.
  intros T V. pose proof (typed_vars_ok _ _ _ T V) as F. clear T V. unfold variables.
  induction F as [|p v tl vars [-> _] F IH]; cbn; congruence.
Qed.
Lemma skeleton_iff s p ts : atomic_formula_skeleton s = Ok (p, ts) ->
  exists vs, s = SList (name_sx p :: vs) /\ (exists groups tail, written_vars vs groups tail)
    /\ forall groups tail, written_vars vs groups tail -> ts = variables (assigned groups tail).
Proof.
  unfold atomic_formula_skeleton. destruct s as [|[|[[]|] vs]]; try discriminate. intros H.
  apply bind_Ok in H as (tl & T & H). apply bind_Ok in H as (vars & V & H).
  apply bind_Ok in H as (q & P & H). apply Built_facts.mk_pred_Ok in P. subst q. injection H as -> <-.
  exists vs. split; auto. rewrite (vars_variables _ _ _ T V). split.
  - destruct (proj1 (typed_list_variable_iff _ _) T) as (groups & tail & W & _). eauto.
  - intros groups tail W. now destruct (proj1 (typed_list_variable_Ok _ _ _ tl W) T) as (-> & _).
Qed.
Definition function_variables (f : string) (l : list (string * list string)) : list term :=
  if String.eqb f "total-cost" then [] else variables l.
Lemma function_skeleton_iff s f ts : atomic_function_skeleton s = Ok (f, ts) ->
  exists vs, s = SList (name_sx f :: vs) /\ (exists groups tail, written_vars vs groups tail)
    /\ forall groups tail, written_vars vs groups tail -> ts = function_variables f (assigned groups tail).
Proof.
  unfold atomic_function_skeleton. destruct s as [|[|[[]|] vs]]; try discriminate. intros H.
  apply bind_Ok in H as (tl & T & H). unfold function_variables.
  assert (W : exists groups tail, written_vars vs groups tail).
  { destruct (proj1 (typed_list_variable_iff _ _) T) as (groups & tail & W & _). eauto. }
  destruct (String.eqb s "total-cost") eqn:E.
  - injection H as <- <-. apply String.eqb_eq in E. subst s. exists vs. auto.
  - apply bind_Ok in H as (vars & V & H).
    apply bind_Ok in H as (q & P & H). unfold mk_numfun in P. apply bind_Ok in P as (n' & N & P). injection P as <-.
    apply parse_function_Ok' in N as [-> _]. injection H as -> <-.
    exists vs. split; auto. split; auto. rewrite (vars_variables _ _ _ T V), E.
    intros groups tail X. now destruct (proj1 (typed_list_variable_Ok _ _ _ tl X) T) as (-> & _).
Qed.

Lemma tlf_step s r seen : is_list s ->
  tl_functions seen (s :: r) = (let* f := atomic_function_skeleton s in let* ts := tl_functions true r in Ok (IItem f :: ts)).
Proof. intros (l & ->). reflexivity. Qed.
(** the items of [l] up to the first dash *)
Lemma tlf_split l : forall seen toks, tl_functions seen l = Ok toks ->
  exists items r, l = items ++ r /\ Forall is_list items
    /\ (r = [] \/ exists l' toks', r = dash :: name_sx "number" :: l' /\ (items <> [] \/ seen = true)
          /\ tl_functions false l' = Ok toks').
Proof.
  induction l as [|s l IH]; intros seen toks H.
  - exists [], []. auto.
  - assert (D : (exists o g r', s = SAtom (TOp o) /\ l = SAtom (TWord g) :: r') \/
     tl_functions seen (s :: l) = (let* f := atomic_function_skeleton s in let* ts := tl_functions true l in Ok (IItem f :: ts))).
    { destruct s as [[]|]; auto. destruct l as [|[[]|] r]; auto. left. eauto 8. }
    destruct D as [(o & g & r' & -> & ->)|E].
    + cbn in H. destruct (String.eqb o "-" && seen && String.eqb g "number") eqn:B; [|discriminate].
      apply bind_Ok in H as (ts & T & H). apply andb_true_iff in B as [B B3]. apply andb_true_iff in B as [B1 B2].
      apply String.eqb_eq in B1, B3. subst o g. exists [], (dash :: name_sx "number" :: r'). split; auto. split; auto.
      right. exists r', ts. auto.
    + rewrite E in H. apply bind_Ok in H as (f & F & H). apply bind_Ok in H as (ts & T & H).
      assert (Ls : is_list s).
      { destruct s as [t|ll]; [discriminate F|]. now exists ll. }
      apply IH in T as (items & r & -> & Fi & R). exists (s :: items), r. split; auto. split; auto.
      destruct R as [R|(l' & toks' & R1 & _ & R3)]; auto. right. exists l', toks'. split; auto. split; auto. left. discriminate.
Qed.
Lemma tlf_written l toks : tl_functions false l = Ok toks -> exists out, written_functions l out.
Proof.
  revert toks. induction l as [l IH] using (well_founded_induction (Wf_nat.well_founded_ltof _ (@length sexp))).
  intros toks H. apply tlf_split in H as (items & r & -> & F & [->|(l' & toks' & -> & [N|N] & T)]).
  - rewrite app_nil_r. eexists. now apply wf_tail.
  - destruct (IH l') with (toks := toks') as (out & W); auto.
    + unfold Wf_nat.ltof. rewrite app_length. cbn. lia.
    + eexists. apply wf_group; eauto.
  - discriminate.
Qed.
Lemma tlf_items items : forall seen r, Forall is_list items -> items <> [] ->
  tl_functions seen (items ++ r) =
  (let* fs := mapR atomic_function_skeleton items in let* ts := tl_functions true r in Ok (map IItem fs ++ ts)).
Proof.
  induction items as [|s items IH]; intros seen r F N; [congruence|]. inversion F; subst. cbn [app].
  rewrite tlf_step by auto. cbn [mapR]. destruct (atomic_function_skeleton s) as [f|]; cbn [bind]; auto.
  destruct items as [|s' items].
  - cbn. destruct (tl_functions true r); reflexivity.
  - rewrite IH by (auto; discriminate). destruct (mapR atomic_function_skeleton (s' :: items)); cbn; auto.
    destruct (tl_functions true r); reflexivity.
Qed.
(** a written list and what is read *)
Lemma tlf_assigned l out : written_functions l out -> forall toks, tl_functions false l = Ok toks ->
  exists groups tail, toks = typed_tokens groups tail /\ Forall (fun g => snd g = ["number"]) groups
    /\ Forall2 (fun x kv => atomic_function_skeleton (fst x) = Ok (fst kv) /\ snd x = hd_error (snd kv)
                            /\ length (snd kv) <= 1) out (assigned groups tail).
Proof.
  assert (Z : forall ty items fs, mapR atomic_function_skeleton items = Ok fs -> length ty <= 1 ->
    Forall2 (fun x kv => atomic_function_skeleton (fst x) = Ok (fst kv) /\ snd x = hd_error (snd kv) /\ length (snd kv) <= 1)
      (map (fun s => (s, hd_error ty)) items) (map (fun a => (a, dedup String.eqb ty)) fs)).
  { intros ty items fs M L. apply mapR_Ok in M. destruct ty as [|g [|]]; cbn in L; try lia;
      induction M as [|s f items fs E M IH]; cbn; constructor; auto. }
  induction 1 as [tail F|items l out N F W IH]; intros toks H.
  - destruct tail as [|s tail].
    + injection H as <-. exists [], []. repeat split; constructor.
    + rewrite <- (app_nil_r (s :: tail)) in H. rewrite tlf_items in H by (auto; discriminate).
      apply bind_Ok in H as (fs & M & H). injection H as <-. exists [], fs. unfold typed_tokens, assigned. cbn [flat_map app].
      rewrite app_nil_r. split; auto. split; auto. apply (Z []); auto.
  - rewrite tlf_items in H by auto. apply bind_Ok in H as (fs & M & H). cbn in H.
    apply bind_Ok in H as (ts & T & H). injection H as <-. apply bind_Ok in T as (ts' & T & H). injection H as <-.
    destruct (IH _ T) as (groups & tail & -> & G & A). exists ((fs, ["number"]) :: groups), tail. split.
    + unfold typed_tokens. cbn [flat_map fst snd]. now rewrite <- !app_assoc.
    + split; auto. unfold assigned. cbn [flat_map fst snd]. rewrite <- app_assoc. apply Forall2_app; auto.
      apply (Z ["number"]); auto.
Qed.
Lemma functions_In l fs out : functions_section l = Ok fs -> written_functions l out ->
  Forall2 (fun x f => atomic_function_skeleton (fst x) = Ok (fst f) /\ snd x = snd f) out fs.
Proof.
  unfold functions_section. destruct l as [|s l]; [discriminate|]. intros H W.
  apply bind_Ok in H as (toks & T & H). destruct (tlf_assigned _ _ W _ T) as (groups & tail & -> & N & A).
  rewrite parse_typed_list_all in H. rewrite (add_all_nodup atom_eqb atom_eqb_equiv) in H.
  - cbn [app] in H. destruct (Nat.eqb_spec (length (dedup atom_eqb (map fst (assigned groups tail)))) (length (assigned groups tail))) as [E|];
      [|discriminate]. cbn [bind] in H. unfold typed_list_of_names in H. cbn [ti_items] in H.
    assert (M : mapR (fun kv : atom * list string => match snd kv with [] => Ok (fst kv, None)
       | [g] => Ok (fst kv, Some g) | _ => Err ValueError end) (assigned groups tail)
       = Ok (map (fun kv => (fst kv, hd_error (snd kv))) (assigned groups tail))).
    { clear - A. induction A as [|x [a gs] l' m (_ & _ & L) A IH]; auto. cbn [snd] in L. cbn [mapR map fst snd bind].
      destruct gs as [|g [|]]; cbn in L; try lia; cbn; rewrite IH; reflexivity. }
    rewrite M in H. cbn in H. injection H as <-. clear - A.
    induction A as [|x [a gs] l' m (E1 & E2 & _) A IH]; cbn; constructor; auto.
  - intros a gs I. split; auto. unfold assigned in I. apply in_app_or in I as [I|I].
    + apply in_flat_map in I as ([it ty] & G & I). apply in_map_iff in I as (x & [= <- <-] & _).
      rewrite Forall_forall in N. specialize (N _ G). cbn in N. subst. constructor; auto using legal_number_type.
    + apply in_map_iff in I as (x & [= <- <-] & _). constructor.
  - apply assigned_nodups.
  - constructor.
Qed.

(** ** the whole domain *)
Lemma kw_in_section s n l k body kw : domain_text s n l -> In (section_sx k body) l -> In (SAtom (TKw kw)) body ->
  In kw colon_keywords.
Proof.
  intros T B X. eapply read_text_kw; [exact T|left; reflexivity|].
  apply AI_list with (x := section_sx k body); [right; right; exact B|].
  apply AI_list with (x := SAtom (TKw kw)); [now right|constructor].
Qed.
Lemma Forall2_In_r {A B} (R : A -> B -> Prop) l m y : Forall2 R l m -> In y m -> exists x, In x l /\ R x y.
Proof.
  induction 1 as [|a b l m H F IH]; [contradiction|]. intros [<-|Hx].
  - exists a. split; auto. now left.
  - destruct (IH Hx) as (x & X & Y). exists x. split; auto. now right.
Qed.
Lemma dedup_req_In r rs : In r (dedup req_eqb rs) <-> In r rs.
Proof. rewrite <- !memb_req_In. now rewrite (memb_dedup _ req_eqb_equiv). Qed.
Lemma typed_names_legal body tl n g : typed_list_name body = Ok tl -> In (n, Some g) tl -> g <> "".
Proof.
  intros H I. destruct (proj1 (typed_list_name_iff _ _) H) as (groups & tail & W & -> & L & _).
  apply in_map_iff in I as ([n' gs] & [= <- E] & I). destruct (L _ _ I) as [_ F]. destruct gs as [|g' gs]; [discriminate|].
  injection E as ->. inversion F as [|? ? [(c & r & -> & _) _] _]; subst. discriminate.
Qed.
Lemma norm_types_iff ty k p : (forall k p, In (k, Some p) ty -> p <> "") -> In (k, p) (norm_types ty) <-> In (k, p) ty.
Proof.
  intros L. unfold norm_types. rewrite in_map_iff. split.
  - intros ([k' v] & [= -> <-] & I). cbn. destruct v as [[|c r]|]; cbn; auto. exfalso. now apply (L _ _ I).
  - intros I. exists (k, p). cbn. split; auto. destruct p as [[|c r]|]; cbn; auto. exfalso. now apply (L _ _ I).
Qed.
Record declared (d : domain) (n : string) (l : list sexp) : Prop := {
  dc_name : d_name d = n;
  dc_reqs : forall r, In r (d_reqs d) <-> declares_req l r;
  dc_types : forall t p, In (t, p) (d_types d) <-> declares_type l t p;
  dc_consts : forall c g, In (c, g) (d_constants d) <-> declares_name ":constants" l c g;
  dc_preds : forall p ts, In (p, ts) (d_predicates d) -> exists vs, declares_predicate l p vs /\ ts = variables vs;
  dc_preds' : forall p vs, declares_predicate l p vs ->
    exists ws, In (p, variables ws) (d_predicates d) /\ same_variables vs ws;
  dc_funs : forall f ts ty, In ((f, ts), ty) (d_functions d) ->
    exists vs, declares_function l f vs ty /\ ts = function_variables f vs;
  dc_funs' : forall f vs ty, declares_function l f vs ty -> In ((f, function_variables f vs), ty) (d_functions d)
}.
Lemma declared_domain s n l d : domain_text s n l -> parse_domain_fresh s = Ok d -> declared d n l.
Proof.
  intros T H. unfold parse_domain_fresh in H. destruct (parse_domain s init_dstate) as [st' r] eqn:E.
  cbn [snd] in H. subst r. apply parse_domain_inv in E as (n' & l0 & T' & H).
  unfold domain_text in *. rewrite T in T'. injection T' as <- <-.
  apply domain_rule_inv in H as (o1 & l1 & st1 & rs & o2 & l2 & st2 & ty & o3 & l3 & st3 & cs & o4
    & l4 & st4 & ps & o5 & l5 & fs & st6 & xs & S1 & H1 & S2 & H2 & S3 & H3 & S4 & H4 & S5 & H5 & H6 & _ & K).
  apply mk_domain_inv in K as (Kn & _ & Kr & Kt & _ & Kc & Kp & Kd & Kf & Ka & _).
  assert (D : forall k body, k <> ":action" -> k <> ":derived" -> ~ In (section_sx k body) l5).
  { intros k body N1 N2. eapply defs_section; eauto. }
  assert (Q5 : forall body, In (section_sx ":functions" body) l <-> o5 = Some body).
  { intros body. rewrite (other_section _ _ _ _ _ body S1), (other_section _ _ _ _ _ body S2), (other_section _ _ _ _ _ body S3),
      (other_section _ _ _ _ _ body S4) by discriminate. apply (in_section _ _ _ _ _ S5). intros b. now apply D. }
  assert (Q4 : forall body, In (section_sx ":predicates" body) l <-> o4 = Some body).
  { intros body. rewrite (other_section _ _ _ _ _ body S1), (other_section _ _ _ _ _ body S2), (other_section _ _ _ _ _ body S3) by discriminate.
    apply (in_section _ _ _ _ _ S4). intros b. rewrite (other_section _ _ _ _ _ b S5) by discriminate. now apply D. }
  assert (Q3 : forall body, In (section_sx ":constants" body) l <-> o3 = Some body).
  { intros body. rewrite (other_section _ _ _ _ _ body S1), (other_section _ _ _ _ _ body S2) by discriminate.
    apply (in_section _ _ _ _ _ S3). intros b. rewrite (other_section _ _ _ _ _ b S4), (other_section _ _ _ _ _ b S5) by discriminate. now apply D. }
  assert (Q2 : forall body, In (section_sx ":types" body) l <-> o2 = Some body).
  { intros body. rewrite (other_section _ _ _ _ _ body S1) by discriminate.
    apply (in_section _ _ _ _ _ S2). intros b.
    rewrite (other_section _ _ _ _ _ b S3), (other_section _ _ _ _ _ b S4), (other_section _ _ _ _ _ b S5) by discriminate. now apply D. }
  assert (Q1 : forall body, In (section_sx ":requirements" body) l <-> o1 = Some body).
  { intros body. apply (in_section _ _ _ _ _ S1). intros b. rewrite (other_section _ _ _ _ _ b S2),
      (other_section _ _ _ _ _ b S3), (other_section _ _ _ _ _ b S4), (other_section _ _ _ _ _ b S5) by discriminate. now apply D. }
  apply optM_Ok in H1, H2, H3, H4, H5. split.
  - exact Kn.
  - intros r. rewrite Kr. unfold declares_req. destruct o1 as [body|].
    + destruct H1 as (ks' & H1 & ->). apply requirements_st in H1 as (ks & H1 & -> & _). cbn [opt_list].
      rewrite !dedup_req_In. rewrite (require_keys_In body ks r); auto.
      * split; [intros I; exists body; split; auto; now apply Q1|intros (b & B & I); apply Q1 in B; injection B as <-; auto].
      * intros k I. apply (kw_in_section s n l ":requirements" body); auto. now apply Q1.
    + destruct H1 as [_ ->]. cbn. split; [tauto|]. intros (b & B & _). apply Q1 in B. discriminate.
  - intros t p. destruct o2 as [body|].
    + destruct H2 as (ty' & H2 & ->). unfold types_section in H2. apply bindM_Ok in H2 as (sa & tl & A & H2).
      apply ret_Ok in A as [-> A]. apply bindM_Ok in H2 as (sb & u & _ & H2). apply bindM_Ok in H2 as (sc & u' & _ & H2).
      apply bindM_Ok in H2 as (sd & u'' & _ & H2). apply ret_Ok in H2 as [_ H2]. injection H2 as <-.
      set (ty := map (fun kv : string * option string => (fst kv, match snd kv with
         | Some p => if String.eqb p "object" then None else Some p | None => None end)) tl) in *.
      assert (Nd : NoDup (map fst ty)).
      { unfold ty. rewrite map_map. rewrite (map_ext _ fst) by reflexivity. now apply typed_names_NoDup in A. }
      destruct (proj1 (mk_types_Ok ty _ _ Nd) Kt) as (-> & Lg & _). rewrite norm_types_iff.
      2:{ intros k g I. unfold ty in I. apply in_map_iff in I as ([k' [g'|]] & [= <- X] & I). cbn in X.
          destruct (String.eqb g' "object"); [discriminate|]. injection X as <-. eapply typed_names_legal; eauto. }
      assert (Ls : forall t g, In (t, g) tl <-> lists ":types" l t (match g with Some u => [u] | None => [] end)).
      { intros t' g. rewrite (typed_names_In _ _ t' g A). unfold lists. split.
        - intros (groups & tail & W & I). exists body, groups, tail. split; auto. now apply Q2.
        - intros (b & groups & tail & B & W & I). apply Q2 in B. injection B as <-. eauto. }
      unfold ty. rewrite in_map_iff. unfold declares_type. destruct p as [p|].
      * rewrite <- (Ls t (Some p)). split.
        -- intros ([t' [g|]] & [= -> X] & I); cbn in X. destruct (String.eqb_spec g "object"); [discriminate|].
           injection X as ->. auto.
        -- intros [I N]. exists (t, Some p). cbn. split; auto. destruct (String.eqb_spec p "object"); congruence.
      * rewrite <- (Ls t None), <- (Ls t (Some "object")). split.
        -- intros ([t' g] & X & I). injection X as -> X. destruct g as [g|]; auto. cbn in X. destruct (String.eqb_spec g "object"); [subst; auto|discriminate].
        -- intros [I|I]; eexists; (split; [|exact I]); reflexivity.
    + destruct H2 as [_ ->]. assert (Z : d_types d = []).
      { clear - Kt. unfold mk_types in Kt. cbn in Kt. revert Kt. generalize (dedup req_eqb (opt_list rs)). intros r Kt.
        destruct (mk_types_norm None r (d_types d)) as (_ & _ & _); auto. cbn in Kt. now injection Kt as <-. }
      rewrite Z. cbn. split; [tauto|]. unfold declares_type, lists. destruct p.
      * intros [(b & groups & tail & B & _) _]. apply Q2 in B. discriminate.
      * intros [(b & groups & tail & B & _)|(b & groups & tail & B & _)]; apply Q2 in B; discriminate.
  - intros c g. rewrite Kc. destruct o3 as [body|].
    + destruct H3 as (cs' & H3 & ->). apply constants_st in H3 as (dd & O & _ & ->). cbn [opt_list].
      destruct (objects_ok _ _ O) as (N & F). rewrite objects_dedup; auto.
      2:{ eapply Forall_impl; [|exact F]. now intros kv [X _]. }
      rewrite (objects_In _ _ c g O). unfold declares_name, lists. split.
      * intros (groups & tail & W & I). destruct g; exists body, groups, tail; (split; [now apply Q3|auto]).
      * destruct g; intros (b & groups & tail & B & W & I); apply Q3 in B; injection B as <-; eauto.
    + destruct H3 as [_ ->]. cbn. split; [tauto|]. unfold declares_name, lists.
      destruct g; intros (b & groups & tail & B & _); apply Q3 in B; discriminate.
  - intros p ts I. rewrite Kp in I. apply dedup_In in I. destruct o4 as [body|].
    + destruct H4 as (ps' & H4 & ->). apply predicates_st in H4 as (_ & M & _). apply mapR_Ok in M. cbn in I.
      destruct (Forall2_In_r _ _ _ _ M I) as (x & X & Sk). apply skeleton_iff in Sk as (vs & -> & (groups & tail & W) & U).
      exists (assigned groups tail). split; [|exact (U _ _ W)]. exists body, vs, groups, tail. split; [now apply Q4|auto].
    + destruct H4 as [_ ->]. destruct I.
  - intros p vs (body & ws & groups & tail & B & I & W & ->). apply Q4 in B. subst o4.
    destruct H4 as (ps' & H4 & ->). apply predicates_st in H4 as (_ & M & _). apply mapR_Ok in M.
    destruct (Forall2_In_l _ _ _ _ M I) as ((p' & ts) & X & Sk). pose proof Sk as Sk0. apply skeleton_iff in Sk as (vs' & Es & _ & U).
    injection Es as <- <-. rewrite (U _ _ W) in *.
    assert (Mm : memb atom_eqb (p, variables (assigned groups tail)) (d_predicates d) = true).
    { rewrite Kp, memb_dedup by apply atom_eqb_equiv. apply memb_In. eexists. split; [exact X|apply (eqv_refl _ atom_eqb_equiv)]. }
    apply (memb_In atom_eqb) in Mm as ((p' & ts') & X' & Q). unfold atom_eqb in Q. cbn [fst snd] in Q.
    apply andb_true_iff in Q as [Q Qt]. apply String.eqb_eq in Q. subst p'.
    pose proof X' as X2. rewrite Kp in X2. apply dedup_In in X2.
    destruct (Forall2_In_r _ _ _ _ M X2) as (x & _ & Sk'). apply skeleton_iff in Sk' as (vs' & _ & (g' & t' & W') & U').
    rewrite (U' _ _ W') in *. exists (assigned g' t'). split; auto.
    apply list_eqb_Forall2 in Qt. clear - Qt. unfold same_variables, variables in *.
    remember (assigned groups tail) as a. remember (assigned g' t') as b. clear Heqa Heqb. revert b Qt.
    induction a as [|x a IH]; intros [|y b] Qt; inversion Qt; subst; constructor; auto.
    cbn in H2. unfold var_eqb in H2. cbn in H2. apply andb_true_iff in H2 as [Q1 Q2]. split; [now apply String.eqb_eq|].
    exact (proj1 (set_eqb_string _ _) Q2).
  - intros f ts ty' I. rewrite Kf in I. destruct o5 as [body|].
    + destruct H5 as (fs' & H5 & ->). apply ret_Ok in H5 as [_ H5]. cbn in I.
      assert (exists out, written_functions body out) as (out & W).
      { unfold functions_section in H5. destruct body; [discriminate|]. apply bind_Ok in H5 as (toks & Tk & _). eapply tlf_written; eauto. }
      pose proof (functions_In _ _ _ H5 W) as F. destruct (Forall2_In_r _ _ _ _ F I) as ((x & ty2) & X & Sk & Ey). cbn [fst snd] in Sk, Ey. subst ty2.
      apply function_skeleton_iff in Sk as (vs & -> & (groups & tail & Wv) & U).
      exists (assigned groups tail). split; [|exact (U _ _ Wv)]. exists body, out, vs, groups, tail. split; [now apply Q5|auto].
    + destruct H5 as [_ ->]. destruct I.
  - intros f vs ty' (body & out & ws & groups & tail & B & W & I & Wv & ->). apply Q5 in B. subst o5. rewrite Kf.
    destruct H5 as (fs' & H5 & ->). apply ret_Ok in H5 as [_ H5]. cbn [opt_list].
    pose proof (functions_In _ _ _ H5 W) as F. destruct (Forall2_In_l _ _ _ _ F I) as (((f' & ts) & ty2) & X & Sk & Ey). cbn [fst snd] in Sk, Ey. subst ty2.
    apply function_skeleton_iff in Sk as (vs' & Es & _ & U). injection Es as <- <-. now rewrite <- (U _ _ Wv).
Qed.

(** ** problems *)
Lemma problem_kw s n dn l k body w : problem_text s n dn l -> In (section_sx k body) l ->
  In (SAtom (TKw w)) body -> In w colon_keywords.
Proof.
  unfold problem_text. intros T I J. eapply read_text_kw; [exact T|left; reflexivity|].
  eapply AI_list; [right; right; right; exact I|]. eapply AI_list; [right; exact J|]. constructor.
Qed.
Lemma metric_spec_body body m : metric_spec body = Ok m -> exists o x, body = [name_sx o; x] /\ me_opt m = o.
Proof.
  unfold metric_spec. destruct body as [|[t|] [|x [|]]]; try discriminate; destruct t; try discriminate.
  destruct (memb _ _ _); [|discriminate]. intros H. apply bind_Ok in H as (f & _ & H). apply mk_metric_Ok in H as [-> _].
  do 2 eexists. split; reflexivity.
Qed.
Record problem_declared (p : problem) (n dn : string) (l : list sexp) : Prop := {
  pd_name : p_name p = n;
  pd_domain : p_domain p = None /\ p_domain_name p = dn;
  pd_reqs : forall r, In r (get_requirements p) <-> declares_req l r;
  pd_objects : forall o g, In (o, g) (p_objects p) <-> declares_name ":objects" l o g;
  pd_metric : forall m, p_metric p = Some m -> exists x, In (section_sx ":metric" [name_sx (me_opt m); x]) l;
  pd_metric' : forall body, In (section_sx ":metric" body) l ->
    exists o x m, body = [name_sx o; x] /\ p_metric p = Some m /\ me_opt m = o
}.
Lemma declared_problem s n dn l p : problem_text s n dn l -> parse_problem s = Ok p -> problem_declared p n dn l.
Proof.
  intros T H. apply parse_problem_inv in H as (n' & dn' & l' & T' & H).
  destruct (problem_text_unique _ _ _ _ _ _ _ T T') as (<- & <- & <-).
  apply problem_rule_inv in H as (o1 & o2 & inits & g & o5 & rs & os & init & goal & m & El & Rq & Os & _ & _ & Me & M).
  assert (PD : p_domain p = None /\ p_domain_name p = dn
     /\ p_reqs p = option_map (dedup req_eqb) rs).
  { unfold mk_problem in M. apply bind_Ok in M as (n' & _ & M). apply bind_Ok in M as ((d', dn') & H1 & M).
    apply bind_Ok in M as (rs' & H2 & M). apply bind_Ok in M as ([] & _ & M). apply bind_Ok in M as ([] & _ & M).
    injection M as <-. cbn in *. apply bind_Ok in H1 as (dn2 & Hn & H1). injection H1 as <- <-.
    split; auto. split; [now apply Names_facts.parse_name_id in Hn|]. destruct rs; now injection H2 as <-. }
  destruct PD as (PD & PN & PR).
  apply mk_problem_fields in M as (_ & _ & Mm & Mo & Mn).
  assert (Q1 : forall body, In (section_sx ":requirements" body) l <-> o1 = Some body).
  { intros body. subst l. unfold problem_sections. destruct o1, o2, o5; cbn; split; intros X;
      repeat (destruct X as [X|X]); try (injection X as ->); try discriminate; try tauto; auto. }
  assert (Q2 : forall body, In (section_sx ":objects" body) l <-> o2 = Some body).
  { intros body. subst l. unfold problem_sections. destruct o1, o2, o5; cbn; split; intros X;
      repeat (destruct X as [X|X]); try (injection X as ->); try discriminate; try tauto; auto. }
  assert (Q5 : forall body, In (section_sx ":metric" body) l <-> o5 = Some body).
  { intros body. subst l. unfold problem_sections. destruct o1, o2, o5; cbn; split; intros X;
      repeat (destruct X as [X|X]); try (injection X as ->); try discriminate; try tauto; auto. }
  split; auto.
  - intros r. unfold get_requirements, declares_req. rewrite PD, PR. destruct o1 as [body|]; cbn in Rq.
    + apply bind_Ok in Rq as (ks & K & Rq). injection Rq as <-. cbn [option_map]. rewrite dedup_req_In.
      rewrite (require_keys_In body ks r); auto.
      * split; [intros I; exists body; split; auto; now apply Q1|intros (b & B & I); apply Q1 in B; injection B as <-; auto].
      * intros k. apply (problem_kw s n dn l ":requirements" body); auto. now apply Q1.
    + injection Rq as <-. cbn. split; [tauto|]. intros (b & B & _). apply Q1 in B. discriminate.
  - intros o t. rewrite Mo. unfold declares_name, lists. destruct o2 as [body|]; cbn in Os.
    + apply bind_Ok in Os as (dd & O & Os). injection Os as <-. destruct (objects_ok _ _ O) as (N & F).
      rewrite objects_dedup; auto.
      2:{ eapply Forall_impl; [|exact F]. now intros kv [X _]. }
      rewrite (objects_In _ _ o t O). split.
      * intros (groups & tail & W & I). destruct t; exists body, groups, tail; (split; [now apply Q2|auto]).
      * destruct t; intros (b & groups & tail & B & W & I); apply Q2 in B; injection B as <-; eauto.
    + injection Os as <-. cbn. split; [tauto|].
      destruct t; intros (b & groups & tail & B & _); apply Q2 in B; discriminate.
  - intros m' E. rewrite Mm in E. rewrite E in Me. destruct o5 as [body|]; cbn in Me; [|discriminate].
    apply bind_Ok in Me as (m2 & Me & X). injection X as ->. apply metric_spec_body in Me as (o & x & -> & <-).
    exists x. now apply Q5.
  - intros body B. apply Q5 in B. subst o5. cbn in Me. apply bind_Ok in Me as (m' & Me & X). injection X as <-.
    apply metric_spec_body in Me as (o & x & -> & E). exists o, x, m'. auto.
Qed.
