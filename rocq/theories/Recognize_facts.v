(** A recogniser for the grammar, to show that given texts are derived from it. *)
From Coq Require Import String Ascii List Bool.
From Verif Require Import Py Names Lexer Parser Py_facts Names_facts Lex_facts Print_facts Spec_Grammar Words_facts.
Import ListNotations.
Open Scope string_scope.
Open Scope list_scope.

Section Recognise.
  Variables (lx : string -> string -> Prop) (lexb : string -> string -> bool) (rl : list (string * sym)).
  Hypothesis lexb_ok : forall t w, lexb t w = true -> lx t w.
  (** what can be left of [ws] after a beginning that [e] stands for *)
  Fixpoint recognise (n : nat) (e : sym) (ws : list string) : list (list string) :=
    match n with
    | 0 => []
    | S n =>
        match e with
        | T t => match ws with w :: r => if lexb t w then [r] else [] | [] => [] end
        | N m => match assoc m rl with Some e' => recognise n e' ws | None => [] end
        | Seq [] => [ws]
        | Seq (e1 :: l) => flat_map (recognise n (Seq l)) (recognise n e1 ws)
        | Alt l => flat_map (fun e1 => recognise n e1 ws) l
        | Opt e1 => ws :: recognise n e1 ws
        | Star e1 => ws :: flat_map (recognise n (Star e1)) (recognise n e1 ws)
        | Plus e1 => flat_map (recognise n (Star e1)) (recognise n e1 ws)
        end
    end.
  Lemma recognise_ok n : forall e ws r, In r (recognise n e ws) -> exists us, ws = us ++ r /\ derives lx rl e us.
  Proof.
    induction n as [|n IH]; intros e ws r H; [destruct H|]. destruct e as [t|m|[|e l]|l|e|e|e]; cbn [recognise] in H.
    - destruct ws as [|w ws]; [destruct H|]. destruct (lexb t w) eqn:E; [|destruct H]. destruct H as [<-|[]]. exists [w]. split; auto. apply D_T; auto.
    - destruct (assoc m rl) as [e'|] eqn:E; [|destruct H]. apply IH in H as (us & -> & D). exists us. split; auto. eapply D_N; [|exact D]. now apply assoc_In.
    - destruct H as [<-|[]]. exists []. split; auto. apply D_Seq_nil.
    - apply in_flat_map in H as (r1 & H1 & H2). apply IH in H1 as (us & -> & D1). apply IH in H2 as (vs & -> & D2). exists (us ++ vs). rewrite <- app_assoc. split; auto. now apply D_Seq_cons.
    - apply in_flat_map in H as (e & H1 & H2). apply IH in H2 as (us & -> & D). exists us. split; auto. eapply D_Alt; eauto.
    - destruct H as [<-|H]; [exists []; split; auto; apply D_Opt_none|]. apply IH in H as (us & -> & D). exists us. split; auto. now apply D_Opt_some.
    - destruct H as [<-|H]; [exists []; split; auto; apply D_Star_nil|]. apply in_flat_map in H as (r1 & H1 & H2).
      apply IH in H1 as (us & -> & D1). apply IH in H2 as (vs & -> & D2). exists (us ++ vs). rewrite <- app_assoc. split; auto. now apply D_Star_cons.
    - apply in_flat_map in H as (r1 & H1 & H2).
      apply IH in H1 as (us & -> & D1). apply IH in H2 as (vs & -> & D2). exists (us ++ vs). rewrite <- app_assoc. split; auto. now apply D_Plus.
  Qed.
  Definition ends (l : list (list string)) : bool := existsb (fun r => match r with [] => true | _ => false end) l.
  Lemma recognise_all n m s : existsb (fun t => match t with TBad => true | _ => false end) (lex s) = false ->
    ends (recognise n (N m) (map spell (lex s))) = true -> exists ws, spelled ws s /\ derives lx rl (N m) ws.
  Proof.
    intros B H. exists (map spell (lex s)). split.
    - apply lex_spelled. intros I. enough (X : existsb (fun t => match t with TBad => true | _ => false end) (lex s) = true) by congruence. apply existsb_exists. exists TBad. auto.
    - apply existsb_exists in H as (r & H & E). destruct r; [|discriminate]. apply recognise_ok in H as (us & -> & D). now rewrite app_nil_r.
  Qed.
End Recognise.

Definition lexb (t w : string) : bool :=
  match assoc t terminals with
  | Some (Lit s) => String.eqb w s
  | Some Name => match kindb w with Some (TWord _) => true | _ => false end
  | Some Number => all_chars is_digit w && negb (String.eqb w "")
  | None => false
  end.
Lemma lexb_ok t w : lexb t w = true -> lexeme t w.
Proof.
  unfold lexb. destruct (assoc t terminals) as [p|] eqn:E; [|discriminate]. intros H. exists p. split; [now apply assoc_In|]. destruct p as [s| |]; cbn.
  - now apply String.eqb_eq.
  - destruct (kindb w) as [k|] eqn:K; [|discriminate]. apply kindb_kind in K. destruct k; try discriminate. inversion K; subst. eauto.
  - apply andb_true_iff in H as [H1 H2]. apply Num_int; [now apply (each_chars _ _ _ digit_spec)|]. intros ->. discriminate.
Qed.
Definition plainb (t w : string) : bool := lexb t w && negb (String.eqb t "NAME" && memb String.eqb w reserved).
Lemma plainb_ok t w : plainb t w = true -> plain t w.
Proof.
  unfold plainb. intros H. apply andb_true_iff in H as [H1 H2]. split; [now apply lexb_ok|]. intros -> I. rewrite String.eqb_refl in H2. cbn [andb] in H2.
  apply negb_true_iff in H2. apply memb_string_In in I. congruence.
Qed.
Ltac in_grammar_by n := apply (recognise_all _ _ _ lexb_ok n); vm_compute; reflexivity.
Ltac in_plain_by n := apply (recognise_all _ _ _ plainb_ok n); vm_compute; reflexivity.
