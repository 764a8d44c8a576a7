(** Proofs about the typed lists of Parser.v. *)
From Coq Require Import String List Bool Arith Lia.
From Verif Require Import Py Names Reqs Logic Validation Core Lexer TypedList Parser.
From Verif Require Import Py_facts Logic_facts Names_facts Spec_Parse TypedList_facts.
Import ListNotations.
Open Scope string_scope.
Open Scope list_scope.

Lemma mapO_words gs : mapO word (map name_sx gs) = Some gs.
Proof. induction gs; simpl; auto. now rewrite IHgs. Qed.
Lemma mapO_word_inv l gs : mapO word l = Some gs -> l = map name_sx gs.
Proof.
  revert gs. induction l as [|s l IH]; simpl; intros gs H; [now inversion H|].
  destruct (word s) as [w|] eqn:W; [|discriminate].
  destruct (mapO word l) as [ws|] eqn:M; [|discriminate]. inversion H; subst.
  rewrite (IH ws) by reflexivity. destruct s as [[]|]; try discriminate. inversion W; subst.
  reflexivity.
Qed.

Lemma type_def_written t gs : type_def t = Some gs <-> written_type t gs.
Proof.
  unfold written_type. split.
  - destruct t as [[]|[|[[]|] ts]]; simpl; try discriminate.
    + intros [= <-]. left. exists s. auto.
    + destruct (String.eqb_spec s "either") as [->|]; [|discriminate].
      destruct ts as [|t ts]; [discriminate|]. intros H. right.
      pose proof (mapO_word_inv _ _ H) as X. rewrite X. split; auto.
      destruct gs; [discriminate|congruence].
  - intros [(g & -> & ->)|(N & ->)]; [reflexivity|].
    simpl. destruct gs as [|g gs]; [congruence|]. simpl map. cbv iota.
    exact (mapO_words (g :: gs)).
Qed.

Lemma tl_vars_var seen n r :
  tl_vars seen (SAtom QMARK :: SAtom (TWord n) :: r)
  = match tl_vars true r with Some ts => Some (IItem n :: ts) | None => None end.
Proof. reflexivity. Qed.
Lemma tl_vars_items items : forall seen r,
  tl_vars seen (flat_map var_sx items ++ r)
  = match tl_vars (match items with [] => seen | _ => true end) r with
    | Some ts => Some (map IItem items ++ ts) | None => None end.
Proof.
  induction items as [|n items IH]; intros seen r; cbn [flat_map app map].
  - now destruct (tl_vars seen r).
  - rewrite <- app_assoc. cbn [var_sx app]. rewrite tl_vars_var, IH.
    destruct items; destruct (tl_vars true r); reflexivity.
Qed.
Lemma tl_vars_written_1 l groups tail :
  written_vars l groups tail -> tl_vars false l = Some (typed_tokens groups tail).
Proof.
  induction 1 as [tail|items t gs l groups tail N T W IH].
  - rewrite <- (app_nil_r (flat_map _ _)), tl_vars_items. unfold typed_tokens.
    destruct tail; simpl; now rewrite ?app_nil_r.
  - rewrite tl_vars_items. destruct items as [|i items]; [congruence|].
    cbn [dash]. unfold dash. cbn [tl_vars].
    rewrite (proj2 (type_def_written t gs) T), IH. simpl.
    unfold typed_tokens. simpl. rewrite <- !app_assoc. reflexivity.
Qed.
Lemma tl_vars_written_2 : forall n l toks items, length l <= n ->
  tl_vars (match items with [] => false | _ => true end) l = Some toks ->
  exists groups tail, written_vars (flat_map var_sx items ++ l) groups tail
    /\ map IItem items ++ toks = typed_tokens groups tail.
Proof.
  induction n as [|n IH]; intros l toks items Hn H.
  - destruct l; [|simpl in Hn; lia]. simpl in H. inversion H; subst.
    exists [], items. rewrite app_nil_r. split; [constructor|]. unfold typed_tokens. simpl.
    now rewrite app_nil_r.
  - destruct l as [|s l].
    { simpl in H. inversion H; subst.
      exists [], items. rewrite app_nil_r. split; [constructor|]. unfold typed_tokens. simpl.
      now rewrite app_nil_r. }
    destruct s as [[]|]; try discriminate.
    + destruct l as [|[[]|] l]; try discriminate. rewrite tl_vars_var in H.
      destruct (tl_vars true l) as [ts|] eqn:T; [|discriminate]. inversion H; subst.
      destruct (IH l ts (items ++ [s])) as (groups & tail & W & Q); [simpl in Hn; lia| |].
      { destruct items; exact T. }
      exists groups, tail. rewrite flat_map_app, <- app_assoc in W. split; [exact W|].
      rewrite <- Q, map_app, <- app_assoc. reflexivity.
    + destruct l as [|t l]; [discriminate|]. cbn [tl_vars] in H.
      destruct (String.eqb_spec s "-") as [->|]; [|discriminate].
      destruct items as [|i items]; [discriminate|]. cbn [andb] in H.
      destruct (type_def t) as [gs|] eqn:D; [|discriminate].
      destruct (tl_vars false l) as [ts|] eqn:T; [|discriminate]. inversion H; subst.
      destruct (IH l ts []) as (groups & tail & W & Q); [simpl in Hn; lia|exact T|].
      exists ((i :: items, gs) :: groups), tail. split.
      * apply (wv_group (i :: items) t gs l); [discriminate| |exact W].
        now apply type_def_written.
      * simpl in Q. subst ts. unfold typed_tokens. simpl. rewrite <- !app_assoc. reflexivity.
Qed.
Lemma tl_vars_written l toks :
  tl_vars false l = Some toks <->
  exists groups tail, written_vars l groups tail /\ toks = typed_tokens groups tail.
Proof.
  split.
  - intros H. destruct (tl_vars_written_2 (length l) l toks []) as (groups & tail & W & Q); auto.
    eauto.
  - intros (groups & tail & W & ->). now apply tl_vars_written_1.
Qed.

Lemma tl_names_name seen n r :
  tl_names seen (SAtom (TWord n) :: r)
  = match tl_names true r with Some ts => Some (IItem n :: ts) | None => None end.
Proof. reflexivity. Qed.
Lemma tl_names_items items : forall seen r,
  tl_names seen (map name_sx items ++ r)
  = match tl_names (match items with [] => seen | _ => true end) r with
    | Some ts => Some (map IItem items ++ ts) | None => None end.
Proof.
  induction items as [|n items IH]; intros seen r; cbn [app map].
  - now destruct (tl_names seen r).
  - unfold name_sx at 1. rewrite tl_names_name, IH.
    destruct items; destruct (tl_names true r); reflexivity.
Qed.
Lemma object_next_no l : object_next l = false <-> forall r, l <> name_sx "object" :: r.
Proof.
  unfold object_next. split.
  - intros H r ->. discriminate H.
  - intros H. destruct l as [|[[]|] l]; auto. destruct (String.eqb_spec s "object") as [->|]; [|reflexivity]. now elim (H l).
Qed.
Lemma tl_names_written_1 l groups tail :
  written_names l groups tail -> tl_names false l = Some (typed_tokens groups tail).
Proof.
  induction 1 as [tail|items g l groups tail N NO W IH].
  - rewrite <- (app_nil_r (map _ _)), tl_names_items. unfold typed_tokens.
    destruct tail; simpl; now rewrite ?app_nil_r.
  - rewrite tl_names_items. destruct items as [|i items]; [congruence|].
    unfold dash, name_sx at 1. cbn [tl_names].
    rewrite (proj2 (object_next_no l) NO), IH. simpl.
    unfold typed_tokens. simpl. rewrite <- !app_assoc. reflexivity.
Qed.
Lemma tl_names_written_2 : forall n l toks items, length l <= n ->
  tl_names (match items with [] => false | _ => true end) l = Some toks ->
  exists groups tail, written_names (map name_sx items ++ l) groups tail
    /\ map IItem items ++ toks = typed_tokens groups tail.
Proof.
  induction n as [|n IH]; intros l toks items Hn H.
  - destruct l; [|simpl in Hn; lia]. simpl in H. inversion H; subst.
    exists [], items. rewrite app_nil_r. split; [constructor|]. unfold typed_tokens. simpl.
    now rewrite app_nil_r.
  - destruct l as [|s l].
    { simpl in H. inversion H; subst.
      exists [], items. rewrite app_nil_r. split; [constructor|]. unfold typed_tokens. simpl.
      now rewrite app_nil_r. }
    destruct s as [[]|]; try discriminate.
    + rewrite tl_names_name in H.
      destruct (tl_names true l) as [ts|] eqn:T; [|discriminate]. inversion H; subst.
      destruct (IH l ts (items ++ [s])) as (groups & tail & W & Q); [simpl in Hn; lia| |].
      { destruct items; exact T. }
      exists groups, tail. rewrite map_app, <- app_assoc in W. split; [exact W|].
      rewrite <- Q, map_app, <- app_assoc. reflexivity.
    + destruct l as [|[[]|] l]; try discriminate. cbn [tl_names] in H.
      destruct (String.eqb_spec s "-") as [->|]; [|discriminate].
      destruct items as [|i items]; [discriminate|]. cbn [andb] in H.
      destruct (object_next l) eqn:ON; [discriminate|]. cbn [negb] in H.
      destruct (tl_names false l) as [ts|] eqn:T; [|discriminate]. inversion H; subst.
      destruct (IH l ts []) as (groups & tail & W & Q); [simpl in Hn; lia|exact T|].
      exists ((i :: items, [s0]) :: groups), tail. split.
      * apply (wn_group (i :: items) s0 l); [discriminate|now apply object_next_no|exact W].
      * simpl in Q. subst ts. unfold typed_tokens. simpl. rewrite <- !app_assoc. reflexivity.
Qed.
Lemma tl_names_written l toks :
  tl_names false l = Some toks <->
  exists groups tail, written_names l groups tail /\ toks = typed_tokens groups tail.
Proof.
  split.
  - intros H. destruct (tl_names_written_2 (length l) l toks []) as (groups & tail & W & Q); auto.
    eauto.
  - intros (groups & tail & W & ->). now apply tl_names_written_1.
Qed.

Lemma written_names_head n r l groups tail : written_names l groups tail -> l = name_sx n :: r -> In n (flat_map fst groups ++ tail).
Proof.
  destruct 1 as [tail|items g l groups tail N NO W]; intros E.
  - destruct tail as [|x tail]; [discriminate|]. inversion E; subst. now left.
  - destruct items as [|x items]; [congruence|]. inversion E; subst. now left.
Qed.
Lemma wn_group_legal items g l groups tail : items <> [] -> (forall n, In n (flat_map fst groups ++ tail) -> n <> "object") -> written_names l groups tail ->
  written_names (map name_sx items ++ dash :: name_sx g :: l) ((items, [g]) :: groups) tail.
Proof. intros N H W. apply wn_group; auto. intros r ->. exact (H _ (written_names_head _ _ _ _ _ W eq_refl) eq_refl). Qed.

(** ** the callbacks *)
Lemma typed_list_variable_var_list l groups tail : written_vars l groups tail ->
  typed_list_variable l = except_value (var_list (typed_tokens groups tail)) PDDLParsingError.
Proof.
  intros W. unfold typed_list_variable, of_opt.
  rewrite (tl_vars_written_1 _ _ _ W). reflexivity.
Qed.
Lemma typed_list_name_name_list l groups tail : written_names l groups tail ->
  typed_list_name l = except_value (name_list (typed_tokens groups tail)) PDDLParsingError.
Proof.
  intros W. unfold typed_list_name, of_opt.
  rewrite (tl_names_written_1 _ _ _ W). reflexivity.
Qed.

Lemma typed_list_variable_Ok l groups tail r : written_vars l groups tail ->
  (typed_list_variable l = Ok r <->
   r = assigned groups tail /\ legal_items r /\ repeats_agree r).
Proof.
  intros W. rewrite (typed_list_variable_var_list _ _ _ W), <- var_list_Ok.
  destruct (var_list _) as [|[]]; simpl; split; congruence.
Qed.
Lemma typed_list_name_Ok l groups tail r : written_names l groups tail ->
  (typed_list_name l = Ok r <->
   r = map (fun kv => (fst kv, hd_error (snd kv))) (assigned groups tail)
   /\ legal_items (assigned groups tail) /\ NoDup (map fst (assigned groups tail))).
Proof.
  intros W. rewrite (typed_list_name_name_list _ _ _ W).
  assert (F : Forall (fun kv : string * list string => length (snd kv) <= 1)
                     (assigned groups tail)).
  { clear r. induction W as [tail|items g l groups tail N W IH].
    - unfold assigned. simpl. apply Forall_forall. intros x Hx.
      apply in_map_iff in Hx as (y & <- & _). simpl. lia.
    - unfold assigned in *. simpl. rewrite <- app_assoc. apply Forall_app. split; auto.
      apply Forall_forall. intros x Hx. apply in_map_iff in Hx as (y & <- & _). simpl. lia. }
  transitivity (name_list (typed_tokens groups tail) = Ok r).
  - destruct (name_list _) as [|[]]; simpl; split; congruence.
  - rewrite name_list_Ok. tauto.
Qed.
Lemma typed_list_variable_syntax l :
  (forall groups tail, ~ written_vars l groups tail) -> typed_list_variable l = Err LarkSyntaxError.
Proof.
  intros H. unfold typed_list_variable. destruct (tl_vars false l) eqn:T; [|reflexivity].
  apply tl_vars_written in T as (groups & tail & W & _). edestruct H; eauto.
Qed.
Lemma typed_list_name_syntax l :
  (forall groups tail, ~ written_names l groups tail) -> typed_list_name l = Err LarkSyntaxError.
Proof.
  intros H. unfold typed_list_name. destruct (tl_names false l) eqn:T; [|reflexivity].
  apply tl_names_written in T as (groups & tail & W & _). edestruct H; eauto.
Qed.
Lemma typed_list_variable_Err l groups tail : written_vars l groups tail ->
  legal_items (assigned groups tail) -> ~ repeats_agree (assigned groups tail) ->
  typed_list_variable l = Err PDDLParsingError.
Proof.
  intros W L N. rewrite (typed_list_variable_var_list _ _ _ W), var_list_Err; auto.
Qed.
Lemma typed_list_name_Err l groups tail : written_names l groups tail ->
  legal_items (assigned groups tail) -> ~ NoDup (map fst (assigned groups tail)) ->
  typed_list_name l = Err PDDLParsingError.
Proof.
  intros W L N. rewrite (typed_list_name_name_list _ _ _ W), name_list_Err; auto. tauto.
Qed.

Lemma typed_list_variable_iff l r : typed_list_variable l = Ok r <->
  exists groups tail, written_vars l groups tail
    /\ r = assigned groups tail /\ legal_items r /\ repeats_agree r.
Proof.
  split.
  - intros H. destruct (tl_vars false l) as [toks|] eqn:T.
    + apply tl_vars_written in T as (groups & tail & W & _). exists groups, tail. split; auto.
      now apply (typed_list_variable_Ok _ _ _ _ W).
    + unfold typed_list_variable in H. rewrite T in H. discriminate.
  - intros (groups & tail & W & H). now apply (typed_list_variable_Ok _ _ _ _ W).
Qed.
Lemma typed_list_name_iff l r : typed_list_name l = Ok r <->
  exists groups tail, written_names l groups tail
    /\ r = map (fun kv => (fst kv, hd_error (snd kv))) (assigned groups tail)
    /\ legal_items (assigned groups tail) /\ NoDup (map fst (assigned groups tail)).
Proof.
  split.
  - intros H. destruct (tl_names false l) as [toks|] eqn:T.
    + apply tl_names_written in T as (groups & tail & W & _). exists groups, tail. split; auto.
      now apply (typed_list_name_Ok _ _ _ _ W).
    + unfold typed_list_name in H. rewrite T in H. discriminate.
  - intros (groups & tail & W & H). now apply (typed_list_name_Ok _ _ _ _ W).
Qed.

Lemma bad_names l : repeats_a_name l -> typed_list_name l = Err PDDLParsingError.
Proof. intros (groups & tail & W & L & N). eapply typed_list_name_Err; eauto. Qed.
Lemma bad_vars l : repeats_inconsistently l -> typed_list_variable l = Err PDDLParsingError.
Proof. intros (groups & tail & W & L & N). eapply typed_list_variable_Err; eauto. Qed.

Lemma bad_sections :
  (forall l st, repeats_a_name l -> snd (types_section l st) = Err PDDLParsingError)
  /\ (forall l st, repeats_a_name l -> snd (constants_section l st) = Err PDDLParsingError)
  /\ (forall l, repeats_a_name l -> objects_section l = Err PDDLParsingError)
  /\ (forall l st, repeats_inconsistently l ->
        snd (action_parameters l st) = Err PDDLParsingError)
  /\ (forall n l, repeats_inconsistently l ->
        atomic_formula_skeleton (SList (name_sx n :: l)) = Err PDDLParsingError).
Proof.
  split; [|split; [|split; [|split]]].
  - intros l st H. unfold types_section, bindM, ret. now rewrite bad_names.
  - intros l st H. unfold constants_section, bindM, ret. now rewrite bad_names.
  - intros l H. unfold objects_section. now rewrite bad_names.
  - intros l st H. unfold action_parameters, bindM, ret. now rewrite bad_vars.
  - intros n l H. simpl. now rewrite bad_vars.
Qed.

Lemma require_keys_cases keys : require_keys keys <> Err LarkSyntaxError ->
  exists rs, require_keys keys = Ok rs.
Proof.
  unfold require_keys, of_opt, syntax. destruct keys; [congruence|].
  destruct (mapO require_key _); [eauto|congruence].
Qed.

Lemma bad_texts :
  (forall s st n keys rest l, require_keys keys <> Err LarkSyntaxError -> repeats_a_name l ->
     domain_text s n (section_sx ":types" l :: rest)
     \/ domain_text s n (section_sx ":constants" l :: rest)
     \/ domain_text s n (section_sx ":requirements" keys :: section_sx ":types" l :: rest)
     \/ domain_text s n (section_sx ":requirements" keys :: section_sx ":constants" l :: rest) ->
     snd (parse_domain s st) = Err PDDLParsingError)
  /\ (forall s n d keys rest l, require_keys keys <> Err LarkSyntaxError -> repeats_a_name l ->
     problem_text s n d (section_sx ":objects" l :: rest)
     \/ problem_text s n d (section_sx ":requirements" keys :: section_sx ":objects" l :: rest) ->
     parse_problem s = Err PDDLParsingError).
Proof.
  split.
  - intros s st n keys rest l K H T. apply require_keys_cases in K as (rs & K).
    unfold domain_text in T. unfold parse_domain.
    destruct T as [T|[T|[T|T]]]; rewrite T; unfold name_sx; cbn [parse_domain_sexp];
      cbn -[require_keys typed_list_name domain_rule]; unfold domain_rule, section_sx;
      cbn -[require_keys typed_list_name]; unfold bindM, optM, requirements, bindM, ret;
      rewrite ?K; cbn; unfold types_section, constants_section, bindM, ret;
      rewrite (bad_names l H); reflexivity.
  - intros s n d keys rest l K H T. apply require_keys_cases in K as (rs & K).
    unfold problem_text in T. unfold parse_problem, parse_problem_from.
    destruct T as [T|T]; rewrite T; unfold name_sx;
      cbn -[require_keys typed_list_name problem_rule]; unfold problem_rule, section_sx;
      cbn -[require_keys typed_list_name]; rewrite ?K; cbn;
      unfold objects_section; rewrite (bad_names l H); reflexivity.
Qed.
