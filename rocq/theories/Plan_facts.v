(** Printing a plan and parsing it again. *)
From Coq Require Import String List Bool Arith Lia.
From Verif Require Import Py Names Logic Core Lexer Show Parser Spec_Parse.
From Verif Require Import Py_facts Names_facts Logic_facts Lex_facts Parse_facts Text_facts.
Import ListNotations.
Open Scope string_scope.
Open Scope list_scope.

Definition step_sx (st : string * list const) : sexp :=
  SList (name_sx (fst st) :: map name_sx (map fst (snd st))).
Lemma rx_step st : identifier (fst st) -> Forall (fun c => legal_name (fst c)) (snd st) ->
  rx (show_step st) [step_sx st].
Proof.
  intros H F. unfold show_step, step_sx.
  eapply rx_group with (body := fst st +++ " " +++ join " " (map fst (snd st))).
  - apply (rx_app _ _ [name_sx (fst st)]); [now apply rx_word| |reflexivity].
    apply rx_space, rx_words. rewrite Forall_map. eapply Forall_impl; [|exact F].
    intros a [Ha _]. exact Ha.
  - now rewrite !append_assoc.
Qed.
Lemma ground_action_step st : Forall (fun c => legal_name (fst c)) (snd st) ->
  ground_action (step_sx st) = Ok (fst st, map (fun c => (fst c, None)) (snd st)).
Proof.
  intros F. destruct st as [n cs]. cbn [fst snd step_sx ground_action name_sx] in *.
  rewrite mapO_words. cbn [of_opt bind].
  assert (E : mapR (fun x => mk_const x None) (map fst cs) = Ok (map (fun c : const => TConst (fst c) None) cs)).
  { apply mapR_Ok. induction F; cbn [map]; constructor; auto. apply mk_const_Ok. auto. }
  rewrite E. cbn [bind]. now rewrite map_map.
Qed.
Lemma parse_show_plan pl :
  Forall (fun st => identifier (fst st) /\ Forall (fun c => legal_name (fst c)) (snd st)) pl ->
  parse_plan (show_plan pl) = Ok (map (fun st => (fst st, map (fun c => (fst c, None)) (snd st))) pl).
Proof.
  intros F. unfold parse_plan.
  assert (R : rx (show_plan pl) (map step_sx pl)).
  { unfold show_plan. rewrite <- (flat_map_single step_sx). apply rx_lines.
    eapply Forall_impl; [|exact F]. intros st [H1 H2]. now apply rx_step. }
  rewrite (rx_read _ _ R). apply mapR_Ok. clear R.
  induction F as [|st pl [H1 H2] F IH]; cbn [map]; constructor; auto.
  now apply ground_action_step.
Qed.
Lemma plan_eqb_untyped pl :
  plan_eqb (map (fun st => (fst st, map (fun c => (fst c, None)) (snd st))) pl) pl = true.
Proof.
  unfold plan_eqb. induction pl as [|[n cs] pl IH]; simpl; auto.
  rewrite String.eqb_refl, IH, andb_true_r. cbn [andb].
  induction cs as [|[c g] cs IHc]; simpl; auto. rewrite IHc. unfold const_eqb. simpl.
  now rewrite String.eqb_refl.
Qed.
