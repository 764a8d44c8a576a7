(** Properties of what parsed effects do (C48). *)
From Coq Require Import String List Bool Arith ZArith QArith Lia.
From Verif Require Import Py Names Reqs Logic Validation Core Lexer TypedList UpdateTags Parser.
From Verif Require Import Sem Spec Spec_Parse Spec_Numbers Spec_Meaning Spec_Effect.
From Verif Require Import Meaning_facts MeaningText_facts Effect_facts EffectText_facts Prop_Meaning.
Import ListNotations.
Open Scope string_scope.
Open Scope list_scope.
Open Scope nat_scope.

(** * C48  A parsed effect makes the changes its text says *)

(** in every state and under every assignment of the parameters, the possible outcomes of the
    parsed effect are exactly those of the written one; precondition and effect come from the same
    written action *)
Theorem C48_partial :
  forall s n sections d, domain_text s n sections -> parse_domain_fresh s = Ok d ->
    (forall a, In a (d_actions d) ->
       exists ps x y p f,
         In (section_sx ":action" [name_sx (a_name a); SAtom (TKw ":parameters"); SList ps;
               SAtom (TKw ":precondition"); x; SAtom (TKw ":effect"); y]) sections
         /\ a_pre a = Some p /\ a_eff a = Some f
         /\ (x <> SList [] -> plain_arithmetic x -> forall I e, holds I e p <-> says I e x)
         /\ (y <> SList [] -> plain_arithmetic y -> no_repeated_effect y ->
             forall I e D, outcome I e f D <-> does I e y D))
    /\ (forall an ps x y,
         In (section_sx ":action" [name_sx an; SAtom (TKw ":parameters"); SList ps;
               SAtom (TKw ":precondition"); x; SAtom (TKw ":effect"); y]) sections ->
         exists a p f, In a (d_actions d) /\ a_name a = an /\ a_pre a = Some p /\ a_eff a = Some f
         /\ (x <> SList [] -> plain_arithmetic x -> forall I e, holds I e p <-> says I e x)
         /\ (y <> SList [] -> plain_arithmetic y -> no_repeated_effect y ->
             forall I e D, outcome I e f D <-> does I e y D)).
Proof. exact parsed_effects. Qed.
Print Assumptions C48_partial.

(** The conditions are needed.  Written twice, an increase is made once; a choice written twice is
    made once, so that the outcome with both alternatives is lost; and the empty effect, which
    changes nothing, becomes a formula that is no effect at all. *)
Definition twice_domain : string :=
  "(define (domain d) (:requirements :numeric-fluents :non-deterministic)
     (:predicates (p) (q)) (:functions (cost))
     (:action pay :parameters () :precondition (p)
        :effect (and (increase (cost) 1) (increase (cost) 1)))
     (:action toss :parameters () :precondition (p)
        :effect (and (oneof (p) (q)) (oneof (p) (q))))
     (:action wait :parameters () :precondition (p) :effect ()))".
Definition pay_sx : sexp :=
  let x := SList [name_sx "increase"; SList [name_sx "cost"]; SAtom (TNum "1")] in
  SList [name_sx "and"; x; x].
Definition toss_sx : sexp :=
  let x := SList [name_sx "oneof"; SList [name_sx "p"]; SList [name_sx "q"]] in
  SList [name_sx "and"; x; x].
Definition written (sections : list sexp) (an : string) (y : sexp) : Prop :=
  In (section_sx ":action" [name_sx an; SAtom (TKw ":parameters"); SList [];
        SAtom (TKw ":precondition"); SList [name_sx "p"]; SAtom (TKw ":effect"); y]) sections.
(** changes that are made [k] times each, for [k] as given *)
Definition exactly {I} (m : change I -> nat) : changes I := fun c k => k <= m c.

Theorem C48_refuted :
  exists n sections d a1 a2 a3 f1 f2 f3,
    domain_text twice_domain n sections /\ parse_domain_fresh twice_domain = Ok d
    /\ d_actions d = [a1; a2; a3]
    /\ a_name a1 = "pay" /\ a_name a2 = "toss" /\ a_name a3 = "wait"
    /\ a_eff a1 = Some f1 /\ a_eff a2 = Some f2 /\ a_eff a3 = Some f3
    /\ written sections "pay" pay_sx /\ written sections "toss" toss_sx
    /\ written sections "wait" (SList [])
    (* two increases written, never two made *)
    /\ (forall I e, exists D, does I e pay_sx D /\ D (Num "increase" "cost" [] 1) 2)
    /\ (forall I e D, outcome I e f1 D -> ~ D (Num "increase" "cost" [] 1) 2)
    (* both facts may become true, but not in the parsed effect *)
    /\ (forall I e, exists D, does I e toss_sx D /\ D (Add "p" []) 1 /\ D (Add "q" []) 1)
    /\ (forall I e D, outcome I e f2 D -> ~ (D (Add "p" []) 1 /\ D (Add "q" []) 1))
    (* nothing to do, but no outcome *)
    /\ (forall I e, exists D, does I e (SList []) D)
    /\ (forall I e D, ~ outcome I e f3 D).
Proof.
  do 9 eexists. split; [vm_compute; reflexivity|]. split; [vm_compute; reflexivity|].
  do 7 (split; [reflexivity|]).
  split; [do 3 right; left; reflexivity|].
  split; [do 4 right; left; reflexivity|].
  split; [do 5 right; left; reflexivity|].
  split; [|split; [|split; [|split; [|split]]]].
  - intros I e.
    set (D1 := (fun c k => k = 0 \/ (k = 1 /\ same_change I c (Num "increase" "cost" [] 1%Q))) : changes I).
    exists (fun c k => exists ks, Forall2 (fun (E : changes I) j => E c j) [D1; D1] ks /\ k <= list_sum ks /\ counted I c k).
    assert (X : does I e (SList [name_sx "increase"; SList [name_sx "cost"]; SAtom (TNum "1")]) D1).
    { apply (do_num I e "increase" _ "cost" [] [] _ 1%Q); [cbn; tauto|now left|constructor| |intros c k; reflexivity].
      constructor. left. exists 1%Z. repeat split; discriminate || reflexivity. }
    split.
    + apply (do_and I e _ [D1; D1]); [constructor; [exact X|constructor; [exact X|constructor]]|].
      intros c k. reflexivity.
    + assert (Y : D1 (Num "increase" "cost" [] 1%Q) 1) by (right; split; [reflexivity|cbn; repeat split; reflexivity]).
      exists [1; 1]. split; [constructor; [exact Y|constructor; [exact Y|constructor]]|].
      split; [simpl; lia|]. right. cbn. discriminate.
  - intros I e D O K. inversion O; subst.
    match goal with H : once _ _ D |- _ => destruct (proj1 (H _ _) K) as [K'|[K' _]] end; discriminate.
  - intros I e.
    set (one := fun p : string => (fun c k => k = 0 \/ (k = 1 /\ same_change I c (Add p []))) : changes I).
    exists (fun c k => exists ks, Forall2 (fun (E : changes I) j => E c j) [one "p"; one "q"] ks /\ k <= list_sum ks /\ counted I c k).
    assert (X : forall p, ~ In p effect_words -> does I e (SList [name_sx p]) (one p)).
    { intros p NP. apply (do_add I e p [] []); [exact NP|constructor|intros c k; reflexivity]. }
    split; [|split].
    + apply (do_and I e _ [one "p"; one "q"]); [|intros c k; reflexivity].
      constructor; [|constructor; [|constructor]].
      * eapply do_oneof; [left; reflexivity|]. apply X. vm_compute. intuition discriminate.
      * eapply do_oneof; [right; left; reflexivity|]. apply X. vm_compute. intuition discriminate.
    + exists [1; 0]. split; [constructor; [right; cbn; auto|constructor; [left; auto|constructor]]|].
      split; [simpl; lia|left; lia].
    + exists [0; 1]. split; [constructor; [left; auto|constructor; [right; cbn; auto|constructor]]|].
      split; [simpl; lia|left; lia].
  - intros I e D O [K1 K2].
    inversion O; subst. match goal with H : In _ _ |- _ => destruct H as [<-|[<-|[]]] end;
    match goal with H : outcome _ _ (FPred _ _) _ |- _ => inversion H; subst end;
    match goal with H : once _ _ D |- _ => destruct (proj1 (H _ _) K1) as [X|[_ X]]; [discriminate|];
      destruct (proj1 (H _ _) K2) as [Y|[_ Y]]; [discriminate|] end; cbn in X, Y; congruence.
  - intros I e. exists (fun _ k => k = 0). constructor. intros c k. reflexivity.
  - intros I e D O. inversion O.
Qed.
Print Assumptions C48_refuted.

(** an action that satisfies the hypotheses, and an outcome of its effect *)
Definition ship_domain : string :=
  "(define (domain d) (:requirements :typing :numeric-fluents :non-deterministic :conditional-effects)
     (:types place) (:predicates (at ?p - place) (lost) (seen ?p - place)) (:functions (fuel))
     (:action sail :parameters (?p ?q - place) :precondition (at ?p)
        :effect (and (not (at ?p)) (oneof (at ?q) (lost)) (decrease (fuel) 1) (decrease (fuel) 2)
                     (forall (?r - place) (when (at ?r) (seen ?r))) (not (at ?p)))))".
Definition sail_sx : sexp :=
  let at_ v := SList (name_sx "at" :: var_sx v) in
  let dec k := SList [name_sx "decrease"; SList [name_sx "fuel"]; SAtom (TNum k)] in
  SList [name_sx "and"; SList [name_sx "not"; at_ "p"];
    SList [name_sx "oneof"; at_ "q"; SList [name_sx "lost"]]; dec "1"; dec "2";
    SList [name_sx "forall"; SList (var_sx "r" ++ [SAtom (TOp "-"); name_sx "place"]);
      SList [name_sx "when"; at_ "r"; SList (name_sx "seen" :: var_sx "r")]];
    SList [name_sx "not"; at_ "p"]].
Example C48_witness :
  exists n l d a f ps x, domain_text ship_domain n l /\ parse_domain_fresh ship_domain = Ok d
    /\ d_actions d = [a] /\ a_eff a = Some f
    /\ In (section_sx ":action" [name_sx "sail"; SAtom (TKw ":parameters"); SList ps;
             SAtom (TKw ":precondition"); x; SAtom (TKw ":effect"); sail_sx]) l.
Proof.
  do 7 eexists. split; [vm_compute; reflexivity|]. split; [vm_compute; reflexivity|].
  split; [reflexivity|]. split; [reflexivity|]. do 4 right. left. vm_compute. reflexivity.
Qed.
Ltac look :=
  repeat match goal with
  | H : inside _ (SAtom _) |- _ => inversion H; subst; clear H
  | H : inside _ (SList _) |- _ => inversion H; subst; clear H
  | H : In _ [] |- _ => destruct H
  | H : In _ (_ :: _) |- _ => destruct H as [H|H]; [subst|]
  end.
Definition sea (q : Q) : interp :=
  {| obj := unit; i_const := fun _ => tt; i_pred := fun _ _ => False;
     i_func := fun _ _ => q; i_type := fun _ _ => True |}.
Example C48_hypotheses : sail_sx <> SList [] /\ plain_arithmetic sail_sx /\ no_repeated_effect sail_sx.
Proof.
  split; [discriminate|]. split; [split|].
  - intros o l O X. unfold sail_sx, var_sx, name_sx, app in X. look; try discriminate; cbn in O; intuition discriminate.
  - intros x l X. unfold sail_sx, var_sx, name_sx, app in X. look.
  - intros l X.
    assert (E : SList (name_sx "and" :: l) = sail_sx).
    { unfold sail_sx, var_sx, name_sx, app in *. look; reflexivity || discriminate. }
    clear X. unfold sail_sx in E. injection E as ->.
    assert (NC : forall n m, ~ In n ["oneof"; "increase"; "decrease"; "scale-up"; "scale-down"] ->
      (forall x, In x m -> ~ counts x) -> ~ counts (SList (name_sx n :: m))).
    { intros n m N H (w & k & W & X). inversion X as [|x l0 Hx Hi]; subst; [contradiction|].
      destruct Hx as [<-|Hx]; [inversion Hi|]. apply (H x Hx). exists w, k. auto. }
    assert (NA : forall t, ~ counts (SAtom t)) by (intros t (w & k & W & X); inversion X).
    assert (NN : ~ counts (SList [name_sx "not"; SList (name_sx "at" :: var_sx "p")])).
    { apply NC; [cbn; intuition discriminate|]. intros x [<-|[]]. apply NC; [cbn; intuition discriminate|].
      intros x [<-|[<-|[]]]; apply NA. }
    assert (NF : ~ counts (SList [name_sx "forall"; SList (var_sx "r" ++ [SAtom (TOp "-"); name_sx "place"]);
      SList [name_sx "when"; SList (name_sx "at" :: var_sx "r"); SList (name_sx "seen" :: var_sx "r")]])).
    { intros (w & k & W & X). unfold var_sx, name_sx, app in X. look; cbn in W; intuition discriminate. }
    assert (DF : forall e, does (sea 0) e (SList [name_sx "decrease"; SList [name_sx "fuel"]; SAtom (TNum "1")])
      (fun c k => k = 0 \/ (k = 1 /\ same_change (sea 0) c (Num "decrease" "fuel" [] 1%Q)))).
    { intros e. apply (do_num (sea 0) e "decrease" _ "fuel" [] [] _ 1%Q); [cbn; tauto|now left|constructor| |intros c k; reflexivity].
      constructor. left. exists 1%Z. repeat split; discriminate || reflexivity. }
    assert (DI : forall D e k, does (sea 0) e (SList [name_sx "decrease"; SList [name_sx "fuel"]; SAtom (TNum k)]) D ->
      forall q, numeral k q -> exists os, once (sea 0) (Num "decrease" "fuel" os q) D).
    { intros D e k H q Q. inversion H as [|? ? ? ? NE| |w h n l os x q0 D0 W FT DN AM ON| | | |]; subst;
        [exfalso; apply NE; cbn; tauto|]. inversion AM; subst. destruct FT as [[= <- <-]|[? _]]; [|discriminate].
      exists os. eapply once_change; [|exact ON]. cbn. repeat split. eapply Number_facts.numeral_unique; eauto. }
    assert (NO : forall D e l, does (sea 0) e (SList (name_sx "oneof" :: l)) D -> exists y, In y l /\ does (sea 0) e y D).
    { intros D e m H. inversion H as [|? ? ? ? NE| |? ? ? ? ? ? ? ? W| | | |]; subst; eauto;
        exfalso; [apply NE; cbn; tauto|cbn in W; intuition discriminate]. }
    assert (N1 : numeral "1" 1) by (left; exists 1%Z; repeat split; discriminate || reflexivity).
    assert (N2 : numeral "2" 2) by (left; exists 2%Z; repeat split; discriminate || reflexivity).
    assert (OD : forall k q, numeral k q -> exists I e D,
      ~ (does I e (SList [name_sx "oneof"; SList (name_sx "at" :: var_sx "q"); SList [name_sx "lost"]]) D
         <-> does I e (SList [name_sx "decrease"; SList [name_sx "fuel"]; SAtom (TNum k)]) D)).
    { intros k q Q. exists (sea 0), (fun _ => tt), (fun c k => k = 0 \/ (k = 1 /\ same_change (sea 0) c (Add "lost" []))).
      intros [H _]. destruct (DI _ _ _ (H ltac:(eapply do_oneof; [right; left; reflexivity|];
        apply (do_add (sea 0) _ "lost" [] []); [cbn; intuition discriminate|constructor|intros c j; reflexivity])) q Q) as (os & O).
      destruct (proj1 (O (Add "lost" []) 1) (or_intror (conj eq_refl eq_refl))) as [?|[_ ?]]; discriminate. }
    repeat (apply FOP_cons; [repeat (apply Forall_cons || apply Forall_nil)|]); try apply FOP_nil;
      try (left; exact NN); try (left; exact NF); try (right; left; exact NN); try (right; left; exact NF).
    + right. right. apply (OD "1" 1%Q N1).
    + right. right. apply (OD "2" 2%Q N2).
    + right. right. exists (sea 0), (fun _ => tt), (fun c k => k = 0 \/ (k = 1 /\ same_change (sea 0) c (Num "decrease" "fuel" [] 1%Q))).
      intros [H _]. destruct (DI _ _ _ (H (DF _)) 2%Q N2) as (os & O).
      destruct (proj1 (O (Num "decrease" "fuel" [] 1%Q) 1) (or_intror (conj eq_refl (conj eq_refl (conj eq_refl (conj eq_refl (Qeq_refl 1))))))) as [?|[_ X]];
        [discriminate|]. cbn in X. destruct X as (_ & _ & _ & X). discriminate X.
Qed.
