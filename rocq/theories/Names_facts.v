(** Facts about Names.v, Reqs.v and the term constructors. *)
From Coq Require Import String Ascii List Bool NArith Lia.
From Verif Require Import Py Names Reqs Logic Py_facts Logic_facts.
Import ListNotations.
Open Scope string_scope.
Open Scope list_scope.

(** ** specification of identifiers *)
Definition letters : list ascii :=
  list_ascii_of_string "abcdefghijklmnopqrstuvwxyzABCDEFGHIJKLMNOPQRSTUVWXYZ".
Definition digits : list ascii := list_ascii_of_string "0123456789".
Definition dash_underscore : list ascii := list_ascii_of_string "-_".

(** a letter followed by letters, digits, '-' or '_' *)
Definition identifier (s : string) : Prop :=
  exists c r, s = String c r /\ In c letters /\
    forall d, In d (list_ascii_of_string r) -> In d (letters ++ digits ++ dash_underscore).

(** the words reserved by PDDL *)
Definition reserved_words : list string :=
  ["and"; "define"; "domain"; "either"; "exists"; "forall"; "imply"; "not"; "object"; "oneof";
   "or"; "problem"; "when"; "assign"; "scale-up"; "scale-down"; "increase"; "decrease";
   "maximize"; "minimize"; "total-cost"].
(** and the reserved spellings that are not words *)
Definition reserved_others : list string :=
  ["("; ")"; "-"; "="; ">"; "<"; ">="; "<="; "+"; "*"; "/"; ":action"; ":constants"; ":derived";
   ":domain"; ":effect"; ":goal"; ":init"; ":objects"; ":parameters"; ":precondition";
   ":predicates"; ":requirements"; ":types"; ":metric"].

Definition asciib (c d : ascii) : bool := Ascii.eqb c d.
Definition inb (c : ascii) (l : list ascii) : bool := existsb (Ascii.eqb c) l.
Lemma inb_In c l : inb c l = true <-> In c l.
Proof.
  unfold inb. rewrite existsb_exists. split.
  - intros (x & Hx & E). apply Ascii.eqb_eq in E. now subst.
  - intros. exists c. split; auto. apply Ascii.eqb_refl.
Qed.

Lemma is_alpha_inb c : is_alpha c = inb c letters.
Proof. destruct c as [[] [] [] [] [] [] [] []]; vm_compute; reflexivity. Qed.
Lemma is_name_char_inb c : is_name_char c = inb c (letters ++ digits ++ dash_underscore).
Proof. destruct c as [[] [] [] [] [] [] [] []]; vm_compute; reflexivity. Qed.

Lemma all_chars_spec p s :
  all_chars p s = true <-> forall c, In c (list_ascii_of_string s) -> p c = true.
Proof.
  induction s; simpl; split; auto; try tauto.
  - intros H c [<-|Hc]; apply andb_true_iff in H as [H1 H2]; auto. now apply IHs.
  - intros H. apply andb_true_iff. split; [auto|]. apply IHs. auto.
Qed.

Lemma name_regex_spec s : name_regex s = true <-> identifier s.
Proof.
  unfold name_regex, identifier. split.
  - destruct s as [|c r]; [discriminate|]. intros H. apply andb_true_iff in H as [H1 H2].
    exists c, r. split; auto. split.
    + apply inb_In. now rewrite <- is_alpha_inb.
    + intros d Hd. apply inb_In. rewrite <- is_name_char_inb.
      apply (proj1 (all_chars_spec _ _) H2); auto.
  - intros (c & r & -> & Hc & Hr). apply andb_true_iff. split.
    + rewrite is_alpha_inb. now apply inb_In.
    + apply all_chars_spec. intros d Hd. rewrite is_name_char_inb. apply inb_In. auto.
Qed.

Lemma all_symbols_spec s : In s all_symbols <-> In s reserved_words \/ In s reserved_others.
Proof.
  rewrite <- in_app_iff, <- !memb_string_In.
  split; rewrite !memb_string_In; intros H.
  - assert (F : forallb (fun x => memb String.eqb x (reserved_words ++ reserved_others)) all_symbols = true)
      by (vm_compute; reflexivity).
    rewrite forallb_forall in F. apply memb_string_In. auto.
  - assert (F : forallb (fun x => memb String.eqb x all_symbols) (reserved_words ++ reserved_others) = true)
      by (vm_compute; reflexivity).
    rewrite forallb_forall in F. apply memb_string_In. auto.
Qed.
Lemma reserved_others_not_ident s : In s reserved_others -> name_regex s = false.
Proof.
  intros H. assert (F : forallb (fun x => negb (name_regex x)) reserved_others = true)
    by (vm_compute; reflexivity).
  rewrite forallb_forall in F. apply F in H. now apply negb_true_iff in H.
Qed.

Definition parse_ignoring (ignore : list string) (s : string) : res string :=
  check_not_a_keyword ignore s ;; mk_name s.

Lemma is_a_keyword_spec ignore s :
  is_a_keyword ignore s = true <-> In s all_symbols /\ ~ In s ignore.
Proof.
  unfold is_a_keyword. rewrite andb_true_iff, negb_true_iff, memb_string_In, memb_string_not_In. tauto.
Qed.

Lemma parse_ignoring_Ok ignore s t :
  parse_ignoring ignore s = Ok t <->
  t = s /\ identifier s /\ (In s reserved_words -> In s ignore).
Proof.
  unfold parse_ignoring, check_not_a_keyword, mk_name.
  destruct (is_a_keyword ignore s) eqn:K; simpl.
  - split; [discriminate|]. intros (-> & Hi & Hr). apply is_a_keyword_spec in K as [K1 K2].
    exfalso. apply all_symbols_spec in K1 as [K1|K1]; auto.
    apply reserved_others_not_ident in K1. apply name_regex_spec in Hi. congruence.
  - destruct (name_regex s) eqn:R.
    + split.
      * intros [= <-]. split; auto. split; [now apply name_regex_spec|].
        intros Hr. destruct (in_dec string_dec s ignore); auto. exfalso.
        assert (is_a_keyword ignore s = true); [|congruence].
        apply is_a_keyword_spec. split; auto. apply all_symbols_spec. auto.
      * intros (-> & _). auto.
    + split; [discriminate|]. intros (-> & Hi & _). apply name_regex_spec in Hi. congruence.
Qed.
Lemma parse_ignoring_Err ignore s e :
  parse_ignoring ignore s = Err e <->
  (e = PDDLValidationError /\ (In s reserved_words \/ In s reserved_others) /\ ~ In s ignore) \/
  (e = ValueError /\ ~ identifier s /\ ~ ((In s reserved_words \/ In s reserved_others) /\ ~ In s ignore)).
Proof.
  rewrite <- all_symbols_spec, <- is_a_keyword_spec, <- name_regex_spec.
  unfold parse_ignoring, check_not_a_keyword, mk_name.
  destruct (is_a_keyword ignore s); simpl.
  - split; [intros [= <-]; auto|]. intros [[-> _]|(_ & _ & H)]; auto. congruence.
  - destruct (name_regex s); split; try discriminate; try (intros [= <-]).
    + intros [(_ & H)|(_ & H & _)]; congruence.
    + right. repeat split; congruence.
    + intros [(_ & H)|(-> & _)]; congruence.
Qed.

Lemma parse_name_id s t : parse_name s = Ok t -> t = s.
Proof. intros H. apply (parse_ignoring_Ok []) in H. tauto. Qed.
Lemma parse_type_id s t : parse_type s = Ok t -> t = s.
Proof. intros H. apply (parse_ignoring_Ok ["object"]) in H. tauto. Qed.
Lemma parse_function_id s t : parse_function s = Ok t -> t = s.
Proof. intros H. apply (parse_ignoring_Ok ["total-cost"]) in H. tauto. Qed.

(** legal names, as used in the specifications *)
Definition legal_name (s : string) : Prop := identifier s /\ ~ In s reserved_words.
Definition legal_type (s : string) : Prop := identifier s /\ (In s reserved_words -> s = "object").
Definition legal_function (s : string) : Prop := identifier s /\ (In s reserved_words -> s = "total-cost").
Lemma parse_name_Ok s : parse_name s = Ok s <-> legal_name s.
Proof.
  change (parse_name s) with (parse_ignoring [] s). rewrite parse_ignoring_Ok. unfold legal_name.
  simpl. tauto.
Qed.
Lemma parse_type_Ok s : parse_type s = Ok s <-> legal_type s.
Proof.
  change (parse_type s) with (parse_ignoring ["object"] s). rewrite parse_ignoring_Ok.
  unfold legal_type. simpl. intuition auto.
Qed.
Lemma parse_function_Ok s : parse_function s = Ok s <-> legal_function s.
Proof.
  change (parse_function s) with (parse_ignoring ["total-cost"] s). rewrite parse_ignoring_Ok.
  unfold legal_function. simpl. intuition auto.
Qed.
Lemma parse_name_Ok' s t : parse_name s = Ok t <-> t = s /\ legal_name s.
Proof.
  split; intros H.
  - pose proof (parse_name_id _ _ H). subst. split; auto. now apply parse_name_Ok.
  - destruct H as [-> H]. now apply parse_name_Ok.
Qed.
Lemma parse_type_Ok' s t : parse_type s = Ok t <-> t = s /\ legal_type s.
Proof.
  split; intros H.
  - pose proof (parse_type_id _ _ H). subst. split; auto. now apply parse_type_Ok.
  - destruct H as [-> H]. now apply parse_type_Ok.
Qed.
Lemma parse_function_Ok' s t : parse_function s = Ok t <-> t = s /\ legal_function s.
Proof.
  split; intros H.
  - pose proof (parse_function_id _ _ H). subst. split; auto. now apply parse_function_Ok.
  - destruct H as [-> H]. now apply parse_function_Ok.
Qed.

(** ** lists of type tags *)
Lemma to_type_Ok l l' : to_type l = Ok l' <-> l' = l /\ Forall legal_type l.
Proof.
  unfold to_type. rewrite mapR_Ok. split.
  - induction 1; auto. destruct IHForall2 as [-> F]. apply parse_type_Ok' in H as [-> H]. auto.
  - intros [-> F]. induction F; constructor; auto. now apply parse_type_Ok.
Qed.
Lemma to_names_Ok l l' : to_names l = Ok l' <-> l' = l /\ Forall legal_name l.
Proof.
  unfold to_names. rewrite mapR_Ok. split.
  - induction 1; auto. destruct IHForall2 as [-> F]. apply parse_name_Ok' in H as [-> H]. auto.
  - intros [-> F]. induction F; constructor; auto. now apply parse_name_Ok.
Qed.

Lemma no_dup_from_Ok l : forall seen,
  no_dup_from seen l = Ok tt <-> NoDup l /\ forall x, In x l -> ~ In x seen.
Proof.
  induction l as [|a l IH]; simpl; intros seen.
  - split; auto. intros _. split; [constructor|tauto].
  - destruct (memb String.eqb a seen) eqn:M.
    + split; [discriminate|]. intros [_ H]. apply memb_string_In in M. exfalso. eapply H; eauto.
    + rewrite IH. apply memb_string_not_In in M. split.
      * intros [N H]. split.
        -- constructor; auto. intros Hi. apply (H a Hi). simpl; auto.
        -- intros x [<-|Hx]; auto. intros Hs. apply (H x Hx). simpl; auto.
      * intros [N H]. inversion N; subst. split; auto.
        intros x Hx [->|Hs]; [contradiction|]. apply (H x); auto.
Qed.

Definition coll_ok {A} (c : coll A) : Prop := match c with CList l => NoDup l | _ => True end.

Lemma check_no_duplicates_Ok c : check_no_duplicates c = Ok tt <-> coll_ok c.
Proof.
  destruct c; simpl; try tauto. rewrite no_dup_from_Ok. split; [tauto|]. intros. split; auto.
Qed.

Lemma no_dup_from_err l : forall seen, no_dup_from seen l = Ok tt \/ no_dup_from seen l = Err ValueError.
Proof. induction l; simpl; auto. intros. destruct (memb String.eqb a seen); auto. Qed.

Lemma term_init_Ok n c n' ts :
  term_init n c = Ok (n', ts) <->
  n' = n /\ ts = dedup String.eqb (coll_items c) /\ legal_name n /\ coll_ok c
  /\ Forall legal_type (coll_items c).
Proof.
  unfold term_init. split.
  - intros H. apply bind_Ok in H as (n1 & H1 & H). apply parse_name_Ok' in H1 as [-> H1].
    apply bind_Ok in H as ([] & H2 & H). apply check_no_duplicates_Ok in H2.
    apply bind_Ok in H as (l & H3 & H). apply to_type_Ok in H3 as [-> H3].
    inversion H; subst. rewrite (dedup_idem _ string_eqb_equiv).
    split; [reflexivity|]. split; [reflexivity|]. split; [exact H1|]. split; [exact H2|].
    rewrite Forall_forall in *. intros x Hx. apply H3. now apply dedup_string_In.
  - intros (-> & -> & H1 & H2 & H3). rewrite (proj2 (parse_name_Ok' n n)) by auto. simpl.
    rewrite (proj2 (check_no_duplicates_Ok c)) by auto. simpl.
    rewrite (proj2 (to_type_Ok _ (dedup String.eqb (coll_items c)))).
    + simpl. rewrite dedup_idem; auto. apply string_eqb_equiv.
    + split; auto. rewrite Forall_forall in *. intros x Hx. apply H3. now apply dedup_In in Hx.
Qed.

Lemma mk_var_Ok n c v :
  mk_var n c = Ok v <->
  v = mkVar n (dedup String.eqb (coll_items c)) /\ legal_name n /\ coll_ok c
  /\ Forall legal_type (coll_items c).
Proof.
  unfold mk_var. split.
  - intros H. apply bind_Ok in H as ((n' & ts) & H1 & H). apply term_init_Ok in H1 as (-> & -> & ?).
    inversion H. auto.
  - intros (-> & H). rewrite (proj2 (term_init_Ok n c n (dedup String.eqb (coll_items c)))); auto.
Qed.

Lemma mk_const_Ok n g t :
  mk_const n g = Ok t <->
  t = TConst n g /\ legal_name n /\ match g with Some x => legal_type x | None => True end.
Proof.
  unfold mk_const. split.
  - intros H. apply bind_Ok in H as ((n' & ts) & H1 & H). apply term_init_Ok in H1 as (-> & -> & H1 & H2 & H3).
    inversion H; subst. destruct g; simpl in *.
    + inversion H3; auto.
    + auto.
  - intros (-> & H1 & H2). destruct g as [x|].
    + rewrite (proj2 (term_init_Ok n (CSet [x]) n [x])); auto. simpl; auto 10.
    + rewrite (proj2 (term_init_Ok n CNone n [])); auto. simpl; auto 10.
Qed.

Lemma check_name_err n e : parse_name n = Err e -> e = PDDLValidationError \/ e = ValueError.
Proof. intros H. apply (parse_ignoring_Err []) in H. tauto. Qed.
Lemma check_type_err n e : parse_type n = Err e -> e = PDDLValidationError \/ e = ValueError.
Proof. intros H. apply (parse_ignoring_Err ["object"]) in H. tauto. Qed.

(** ** atoms: name-consistent tags (C15) *)
(** any two terms with the same name carry the same set of type tags *)
Definition name_consistent (ts : list term) : Prop :=
  forall t u, In t ts -> In u ts -> t_name t = t_name u ->
  forall g, In g (t_tags t) <-> In g (t_tags u).

Lemma consistency_from_spec ts : forall seen,
  consistency_from seen ts = Ok tt <->
  (forall t u, In t ts -> In u ts -> t_name t = t_name u ->
     set_eqb String.eqb (t_tags t) (t_tags u) = true) /\
  (forall t tags, In t ts -> dict_get String.eqb (t_name t) seen = Some tags ->
     set_eqb String.eqb tags (t_tags t) = true).
Proof.
  pose proof (set_eqb_equiv _ string_eqb_equiv) as E.
  induction ts as [|t ts IH]; simpl; intros seen.
  - split; auto; split; intros; contradiction.
  - destruct (dict_get String.eqb (t_name t) seen) as [tags|] eqn:G.
    + split.
      * intros H. apply bind_Ok in H as ([] & H1 & H). apply check_Ok in H1. apply IH in H as [H2 H3].
        assert (X : forall u, In u (t :: ts) -> t_name t = t_name u -> 
                      set_eqb String.eqb (t_tags t) (t_tags u) = true).
        { intros u [<-|Hu] Hn; [apply (eqv_refl _ E)|]. 
          eapply (eqv_trans _ E); [rewrite (eqv_sym _ E); exact H1|]. apply H3; auto. now rewrite <- Hn. }
        split.
        -- intros a b [<-|Ha] Hb Hn.
           ++ apply X; auto.
           ++ destruct Hb as [<-|Hb]; [|auto]. rewrite (eqv_sym _ E). apply X; simpl; auto.
        -- intros a tg [<-|Ha] Hg; [congruence|]. eapply H3; eauto.
      * intros [H1 H2]. rewrite (H2 t tags) by auto. simpl. apply IH. split; auto.
    + rewrite IH. split.
      * intros [H1 H2].
        assert (X : forall u, In u ts -> t_name u = t_name t -> set_eqb String.eqb (t_tags t) (t_tags u) = true).
        { intros u Hu Hn. apply (H2 u); auto. rewrite dict_get_set by apply string_eqb_equiv.
          now rewrite Hn, String.eqb_refl. }
        split.
        -- intros a b [<-|Ha] [<-|Hb] Hn; auto.
           ++ apply (eqv_refl _ E).
           ++ rewrite (eqv_sym _ E). auto.
        -- intros a tg [<-|Ha] Hg; [congruence|]. apply H2; auto.
           rewrite dict_get_set by apply string_eqb_equiv.
           destruct (String.eqb (t_name a) (t_name t)) eqn:Q; auto.
           apply String.eqb_eq in Q. rewrite Q in Hg. congruence.
      * intros [H1 H2]. split; auto. intros a tg Ha. rewrite dict_get_set by apply string_eqb_equiv.
        destruct (String.eqb (t_name a) (t_name t)) eqn:Q.
        -- apply String.eqb_eq in Q. intros [= <-]. auto.
        -- intros. apply H2; auto.
Qed.
Lemma check_terms_consistency_Ok ts : check_terms_consistency ts = Ok tt <-> name_consistent ts.
Proof.
  unfold check_terms_consistency. rewrite consistency_from_spec. unfold name_consistent. split.
  - intros [H _] t u Ht Hu Hn. apply set_eqb_string. auto.
  - intros H. split; [|simpl; discriminate]. intros t u Ht Hu Hn. apply set_eqb_string. auto.
Qed.
Lemma consistency_from_err ts : forall seen,
  consistency_from seen ts = Ok tt \/ consistency_from seen ts = Err ValueError.
Proof.
  induction ts; simpl; auto. intros. destruct (dict_get String.eqb (t_name a) seen); auto.
  destruct (set_eqb _ _ _); simpl; auto.
Qed.

Lemma mk_pred_iff n ts f :
  mk_pred n ts = Ok f <-> f = FPred n ts /\ legal_name n /\ name_consistent ts.
Proof.
  unfold mk_pred. split.
  - intros H. apply bind_Ok in H as (n' & H1 & H). apply parse_name_Ok' in H1 as [-> H1].
    apply bind_Ok in H as ([] & H2 & H). apply check_terms_consistency_Ok in H2. inversion H. auto.
  - intros (-> & H1 & H2). rewrite (proj2 (parse_name_Ok' n n)) by auto. simpl.
    rewrite (proj2 (check_terms_consistency_Ok ts)) by auto. auto.
Qed.
Lemma mk_eq_iff l r f : mk_eq l r = Ok f <-> f = FEq l r /\ name_consistent [l; r].
Proof.
  unfold mk_eq. split.
  - intros H. apply bind_Ok in H as ([] & H2 & H). apply check_terms_consistency_Ok in H2. inversion H. auto.
  - intros (-> & H2). rewrite (proj2 (check_terms_consistency_Ok _)) by auto. auto.
Qed.
