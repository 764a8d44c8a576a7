(** C66: a plan text is read step by step. *)
From Coq Require Import String Ascii List Bool.
From Verif Require Import Py Names Logic Validation Core Lexer Parser.
From Verif Require Import Spec_Core Spec_Layout Spec_Parse Spec_Steps Py_facts Names_facts Steps_facts.
Import ListNotations.
Open Scope string_scope.
Open Scope list_scope.

(** a plan text is accepted exactly if it is a sequence of groups [(name object ..)] with legal
    object names, and the plan has exactly these steps, in order, with untyped objects *)
Theorem C66_exact : forall s pl, parse_plan s = Ok pl <->
  read_text s = Some (map step_sx pl)
  /\ forall step c, In step pl -> In c (snd step) -> legal_name (fst c) /\ snd c = None.
Proof.
  intros s pl. unfold parse_plan. split.
  - intros H. destruct (read_text s) as [l|]; [|discriminate]. apply mapR_Ok in H.
    assert (K : l = map step_sx pl /\ Forall (fun st => Forall (fun c => legal_name (fst c) /\ snd c = None) (snd st)) pl).
    { induction H as [|x st l pl E H [IH1 IH2]]; [split; [reflexivity|constructor]|].
      apply ground_action_iff in E as [-> F]. subst l. split; [reflexivity|]. constructor; auto. }
    destruct K as [-> K]. split; [reflexivity|]. intros st c I J. rewrite Forall_forall in K. specialize (K st I).
    rewrite Forall_forall in K. auto.
  - intros [-> F]. apply mapR_Ok. induction pl as [|st pl IH]; cbn [map]; constructor.
    + apply ground_action_iff. split; auto. apply Forall_forall. intros c C. apply (F st c); [now left|exact C].
    + apply IH. intros st' c I. apply (F st' c). now right.
Qed.
Print Assumptions C66_exact.

(** two plan texts one below the other give the one plan after the other; if the first is a plan
    and the second is not, the whole is rejected, for the same reason *)
Theorem C66_concat : forall s t pl, parse_plan s = Ok pl ->
  parse_plan (s +++ String newline t) = match parse_plan t with Ok pl' => Ok (pl ++ pl') | Err e => Err e end.
Proof.
  intros s t pl H. unfold parse_plan in *. destruct (read_text s) as [l|] eqn:E; [|discriminate].
  rewrite (read_text_lines _ t _ E). destruct (read_text t) as [m|]; cbn [option_map]; [|reflexivity].
  rewrite mapR_app, H. cbn [bind]. now destruct (mapR ground_action m).
Qed.
Print Assumptions C66_concat.

(** checking and instantiating a plan is checking and instantiating its parts *)
Theorem C66_check : forall pl pl' d p, plan_check (pl ++ pl') d p = Ok tt <->
  plan_check pl d p = Ok tt /\ plan_check pl' d p = Ok tt.
Proof.
  intros. unfold plan_check. rewrite iterR_app. destruct (iterR (plan_check_step d p) pl) as [[]|]; cbn [bind].
  - split; [auto|tauto].
  - split; [discriminate|]. intros [X _]. discriminate.
Qed.
Print Assumptions C66_check.
Theorem C66_instantiate : forall pl pl' d,
  plan_instantiate (pl ++ pl') d =
  match plan_instantiate pl d, plan_instantiate pl' d with
  | Ok l, Ok l' => Ok (l ++ l')
  | Ok _, Err e => Err e
  | Err e, _ => Err e
  end.
Proof.
  intros. unfold plan_instantiate. rewrite mapR_app.
  destruct (mapR _ pl); cbn [bind]; [|reflexivity]. now destruct (mapR _ pl').
Qed.
Print Assumptions C66_instantiate.

Definition steps1 : string := "(move a b) ; go
(pick a)".
Definition steps2 : string := "(noop)(move b a)".
Example C66_ex : parse_plan steps1 = Ok [("move", [("a", None); ("b", None)]); ("pick", [("a", None)])] /\
  parse_plan steps2 = Ok [("noop", []); ("move", [("b", None); ("a", None)])] /\
  parse_plan (steps1 +++ String newline steps2) =
    Ok [("move", [("a", None); ("b", None)]); ("pick", [("a", None)]); ("noop", []); ("move", [("b", None); ("a", None)])] /\
  read_text steps2 = Some (map step_sx [("noop", []); ("move", [("b", None); ("a", None)])]).
Proof. repeat split; vm_compute; reflexivity. Qed.
(** without a line break the last comment of the first text would swallow the second *)
Example C66_comment : parse_plan ("(noop) ;" +++ steps2) = Ok [("noop", [])].
Proof. vm_compute. reflexivity. Qed.
