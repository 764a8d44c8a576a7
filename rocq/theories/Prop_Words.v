(** C82: the shorthands variables() and constants(), and the direction of a metric. *)
From Coq Require Import String Ascii List Bool Lia.
From Verif Require Import Py Names Reqs Logic Py_facts Names_facts Lex_facts Spec_Words.
Import ListNotations.
Open Scope string_scope.
Open Scope list_scope.

Lemma split_blank b s : blank_text b -> split_ws (b +++ s) = split_ws s.
Proof. induction b as [|c b IH]; cbn [blank_text append split_ws]; auto. intros [C B]. rewrite C. auto. Qed.
Lemma split_solid w s : w <> "" -> solid_text w -> (s = "" \/ exists c r, s = String c r /\ is_space c = true) -> split_ws (w +++ s) = w :: split_ws s.
Proof.
  intros N W S. induction w as [|c w IH]; [congruence|]. destruct W as [C W]. cbn [append split_ws]. rewrite C. destruct w as [|d w].
  - cbn [append]. destruct S as [->|(c' & r & -> & C')]; [reflexivity|]. rewrite C'. cbn [split_ws]. rewrite C'. reflexivity.
  - rewrite IH; [|discriminate|exact W]. change (String d w +++ s) with (String d (w +++ s)). destruct W as [D _]. cbv iota. rewrite D. reflexivity.
Qed.
Lemma words_split ws s : words_of ws s -> ws = split_ws s.
Proof.
  induction 1 as [b B|b w B N W|b w c r ws B N W C _ IH].
  - rewrite <- (append_nil_r b). rewrite split_blank; auto.
  - rewrite split_blank by auto. rewrite <- (append_nil_r w). rewrite split_solid; auto. now rewrite append_nil_r.
  - rewrite split_blank by auto. rewrite split_solid; eauto 6. cbn [split_ws]. rewrite C. now rewrite IH.
Qed.
Lemma words_blank ws b s : blank_text b -> words_of ws s -> words_of ws (b +++ s).
Proof.
  intros B. assert (A : forall b', blank_text b' -> blank_text (b +++ b')) by (intros b' B'; induction b as [|c b IH]; cbn in *; tauto).
  destruct 1 as [b' B'|b' w B' N W|b' w c r ws B' N W C H]; rewrite ?append_assoc; [apply Words_none; auto|rewrite <- append_assoc; apply Words_last; auto|rewrite <- append_assoc; apply Words_more; auto].
Qed.
Lemma words_join c d s ws : is_space c = false -> is_space d = false -> words_of ws (String d s) -> exists w l, ws = w :: l /\ words_of (String c w :: l) (String c (String d s)).
Proof.
  intros C D H. inversion H as [b B E0 E|b w B N W E0 E|b w c' r l B N W C' H' E0 E]; subst ws.
  - subst. destruct B as [B _]. congruence.
  - destruct b as [|x b]; [|cbn in E; injection E as -> _; destruct B as [B _]; congruence]. exists w, []. split; auto.
    apply (Words_last "" (String c w)); [exact I|discriminate|cbn; auto].
  - destruct b as [|x b]; [|cbn in E; injection E as -> _; destruct B as [B _]; congruence]. exists w, l. split; auto.
    apply (Words_more "" (String c w) c' r); [exact I|discriminate|cbn; auto|auto|auto].
Qed.
Lemma words_exist_upto n : forall s, String.length s < n -> words_of (split_ws s) s.
Proof.
  induction n as [|n IH]; intros s L; [lia|]. destruct s as [|c s]; [apply Words_none; exact I|]. cbn [String.length] in L. cbn [split_ws]. destruct (is_space c) eqn:C.
  - apply (words_blank _ (String c "")); [split; [exact C|exact I]|]. apply IH. lia.
  - destruct s as [|d s]; [apply (Words_last "" (str1 c)); [exact I|discriminate|cbn; auto]|]. destruct (is_space d) eqn:D.
    + apply (Words_more "" (str1 c) d s); [exact I|discriminate|cbn; auto|exact D|]. cbn [split_ws]. rewrite D. apply IH. cbn in L. lia.
    + assert (H : words_of (split_ws (String d s)) (String d s)) by (apply IH; lia). destruct (words_join c d s _ C D H) as (w & l & -> & K). exact K.
Qed.
Lemma words_exist s : words_of (split_ws s) s.
Proof. apply (words_exist_upto (S (String.length s))). lia. Qed.

(** every text has words, and only one list of them *)
Theorem C82_words : forall s, exists ws, words_of ws s /\ forall ws', words_of ws' s -> ws' = ws.
Proof. intros s. exists (split_ws s). split; [apply words_exist|]. intros ws' H. now apply words_split. Qed.
Print Assumptions C82_words.

Lemma mapR_iff {A B} (f : A -> res B) (g : A -> B) (P : A -> Prop) : (forall x y, f x = Ok y <-> y = g x /\ P x) -> forall l l', mapR f l = Ok l' <-> l' = map g l /\ Forall P l.
Proof.
  intros H. induction l as [|x l IH]; intros l'; cbn [mapR map].
  - split; [intros [= <-]; auto|intros [-> _]; reflexivity].
  - split.
    + intros E. apply bind_Ok in E as (y & Y & E). apply bind_Ok in E as (ys & Q & E). injection E as <-. apply H in Y as [-> Y]. apply IH in Q as [-> Q]. auto.
    + intros [-> F]. inversion F; subst. rewrite (proj2 (H x (g x))) by auto. cbn [bind]. rewrite (proj2 (IH (map g l))) by auto. reflexivity.
Qed.
Lemma Forall_both {A} (P : A -> Prop) (Q : Prop) l : Forall (fun x => P x /\ Q) l <-> Forall P l /\ (l <> [] -> Q).
Proof.
  induction l as [|x l IH]; [split; [intros _; split; [constructor|congruence]|intros _; constructor]|]. split.
  - intros H. inversion H as [|? ? [A1 B1] F]; subst. apply IH in F as [F _]. split; auto.
  - intros [F H]. inversion F; subst. assert (Q) by (apply H; discriminate). constructor; [auto|]. apply IH. auto.
Qed.

(** * variables() *)
Theorem C82_variables : forall s types vs,
  variables s types = Ok vs <->
  exists ws, words_of ws s /\ Forall legal_name ws /\ (ws <> [] -> Forall legal_type (coll_items types)) /\
    vs = map (fun w => mkVar w (dedup String.eqb (coll_items types))) ws.
Proof.
  intros s types vs. unfold variables.
  rewrite (mapR_iff _ (fun w => mkVar w (dedup String.eqb (coll_items types))) (fun w => legal_name w /\ Forall legal_type (coll_items types))).
  - rewrite Forall_both. split.
    + intros (-> & F & T). exists (split_ws s). split; [apply words_exist|]. auto.
    + intros (ws & W & F & T & ->). apply words_split in W as ->. auto.
  - intros x y. rewrite mk_var_Ok. cbn [coll_items coll_ok]. rewrite (dedup_idem _ string_eqb_equiv). split.
    + intros (-> & L & _ & F). split; auto. split; auto. rewrite Forall_forall in *. intros t Ht. apply F. now apply dedup_string_In.
    + intros (-> & L & F). split; auto. split; auto. split; [exact I|]. rewrite Forall_forall in *. intros t Ht. apply F. now apply dedup_In in Ht.
Qed.
Print Assumptions C82_variables.
(** * constants() *)
Theorem C82_constants : forall s type_ cs,
  constants s type_ = Ok cs <->
  exists ws, words_of ws s /\ Forall legal_name ws /\ (ws <> [] -> forall t, type_ = Some t -> legal_type t) /\ cs = map (fun w => TConst w type_) ws.
Proof.
  intros s type_ cs. unfold constants. rewrite (mapR_iff _ (fun w => TConst w type_) (fun w => legal_name w /\ forall t, type_ = Some t -> legal_type t)).
  - rewrite Forall_both. split.
    + intros (-> & F & T). exists (split_ws s). split; [apply words_exist|]. auto.
    + intros (ws & W & F & T & ->). apply words_split in W as ->. auto.
  - intros x y. rewrite mk_const_Ok. split; intros (-> & L & T); split; auto; split; auto; [intros t ->; exact T|]. destruct type_; auto.
Qed.
Print Assumptions C82_constants.
(** * Metric() *)
Theorem C82_metric : forall e o m, (mk_metric e o = Ok m <-> m = mkMetric e o /\ (o = "minimize" \/ o = "maximize"))
  /\ (forall x, mk_metric e o = Err x -> x = AssertionError).
Proof.
  intros e o m. unfold mk_metric. cbn [memb existsb]. destruct (String.eqb o "maximize") eqn:A; [|destruct (String.eqb o "minimize") eqn:B]; cbn [orb check bind].
  - apply String.eqb_eq in A. subst. split; [|discriminate]. split; [intros [= <-]; auto|intros [-> _]; reflexivity].
  - apply String.eqb_eq in B. subst. split; [|discriminate]. split; [intros [= <-]; auto|intros [-> _]; reflexivity].
  - apply String.eqb_neq in A, B. split; [|intros x [= <-]; reflexivity]. split; [discriminate|]. intros [_ [H|H]]; congruence.
Qed.
Print Assumptions C82_metric.
Example E82 : variables " a  b" (CList ["s"; "t"; "s"]) = Ok [mkVar "a" ["s"; "t"]; mkVar "b" ["s"; "t"]]
  /\ constants "a b" (Some "t") = Ok [TConst "a" (Some "t"); TConst "b" (Some "t")] /\ words_of ["a"; "b"] " a  b"
  /\ (exists e, variables "a b?" CNone = Err e) /\ mk_metric (FNumFun "f" []) "minimise" = Err AssertionError.
Proof.
  split; [reflexivity|]. split; [reflexivity|]. split; [apply (words_exist " a  b")|]. split; [eexists; vm_compute; reflexivity|reflexivity].
Qed.
