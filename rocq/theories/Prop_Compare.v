(** C68: comparing conditions, effects and numbers by [<], [>], [<=] and [>=]. *)
From Coq Require Import String List Bool ZArith QArith.
From Verif Require Import Py Logic Compare Spec_Compare Py_facts Logic_facts Order_facts Strict_facts Compare_facts.
Import ListNotations.
Open Scope string_scope.

(** Full property: any two conditions (effects, numbers) can be compared; exactly one of f < g,
    f == g, f > g holds; f > g says g < f; f <= g says f < g or f == g; f >= g says g <= f. *)
Definition x1 : var := mkVar "x" [].
Definition y1 : var := mkVar "y" [].
(** False: two conjunctions cannot be compared at all, nor can objects of different classes *)
Theorem C68_refuted :
  (forall f g ops ops' k k', f = FBin k ops -> g = FBin k' ops' ->
     form_lt f g = Err TypeError /\ form_gt f g = Err TypeError /\
     form_le f g = Err TypeError /\ form_ge f g = Err TypeError) /\
  (exists f g, form_gt f g = Ok true /\ form_gt g f = Ok true /\ form_lt f g = Ok false /\
     form_lt g f = Ok false /\ f = mk_forall [x1] (FPred "p" []) /\ g = mk_forall [y1] (FPred "p" [])) /\
  (exists f g, form_gt f g = Ok true /\ form_gt g f = Ok true /\
     f = mk_quant QForall [x1] (FPred "p" []) /\ g = mk_quant QExists [x1] (FPred "p" [])).
Proof.
  split; [|split].
  - intros f g ops ops' k k' -> ->. repeat split.
  - exists (mk_forall [x1] (FPred "p" [])), (mk_forall [y1] (FPred "p" [])). vm_compute. auto 10.
  - exists (mk_quant QForall [x1] (FPred "p" [])), (mk_quant QExists [x1] (FPred "p" [])). vm_compute. auto 10.
Qed.
Print Assumptions C68_refuted.

(** When a comparison raises, exactly, and that it is always the same exception *)
Lemma compare_raises : forall f g,
  (comparable f g -> exists p q r s, form_lt f g = Ok p /\ form_gt f g = Ok q /\
     form_le f g = Ok r /\ form_ge f g = Ok s) /\
  (~ comparable f g -> form_lt f g = Err TypeError /\ form_gt f g = Err TypeError /\
     form_le f g = Err TypeError /\ form_ge f g = Err TypeError).
Proof.
  intros f g. unfold form_gt, form_le, form_ge. split; intros H.
  - apply ok_lt in H as (b & ->). cbn. eauto 10.
  - destruct (lt_cases f g) as [(b & E)| ->]; [|cbn; auto]. exfalso. apply H. eapply lt_ok; eauto.
Qed.
Theorem C68_raises : forall f g,
  (comparable f g -> exists p q r s, form_lt f g = Ok p /\ form_gt f g = Ok q /\
     form_le f g = Ok r /\ form_ge f g = Ok s) /\
  (~ comparable f g -> form_lt f g = Err TypeError /\ form_gt f g = Err TypeError /\
     form_le f g = Err TypeError /\ form_ge f g = Err TypeError).
Proof. exact compare_raises. Qed.
Print Assumptions C68_raises.

(** What holds of two objects that can be compared and are not unrelated.
    Missing: the others. *)
Lemma compare_three : forall f g, types_are_sets f -> types_are_sets g -> comparable f g -> ~ unrelated f g ->
  ((form_lt f g = Ok true /\ form_eqb f g = false /\ form_gt f g = Ok false) \/
   (form_lt f g = Ok false /\ form_eqb f g = true /\ form_gt f g = Ok false) \/
   (form_lt f g = Ok false /\ form_eqb f g = false /\ form_gt f g = Ok true)) /\
  form_gt f g = form_lt g f /\
  (form_le f g = Ok true <-> form_lt f g = Ok true \/ form_eqb f g = true) /\
  form_ge f g = form_le g f.
Proof.
  intros f g A B K U. destruct (form_tri f g A B K) as [[V _]|[_ O]]; [contradiction|].
  unfold form_gt, form_le, form_ge. rewrite (form_eqb_sym g f).
  destruct O as [(-> & -> & ->)|[(-> & -> & ->)|(-> & -> & ->)]]; cbn; intuition congruence.
Qed.
Theorem C68_three_partial : forall f g,
  types_are_sets f -> types_are_sets g -> comparable f g -> ~ unrelated f g ->
  ((form_lt f g = Ok true /\ form_eqb f g = false /\ form_gt f g = Ok false) \/
   (form_lt f g = Ok false /\ form_eqb f g = true /\ form_gt f g = Ok false) \/
   (form_lt f g = Ok false /\ form_eqb f g = false /\ form_gt f g = Ok true)) /\
  form_gt f g = form_lt g f /\
  (form_le f g = Ok true <-> form_lt f g = Ok true \/ form_eqb f g = true) /\
  form_ge f g = form_le g f.
Proof. exact compare_three. Qed.
Print Assumptions C68_three_partial.

(** Unrelated objects, and only they, are each greater than the other *)
Lemma compare_both : forall f g, types_are_sets f -> types_are_sets g -> comparable f g ->
  (unrelated f g <-> form_gt f g = Ok true /\ form_gt g f = Ok true).
Proof.
  intros f g A B K. unfold form_gt. rewrite (form_eqb_sym g f).
  destruct (form_tri f g A B K) as [[U (-> & -> & ->)]|[U O]]; cbn; [tauto|].
  split; [contradiction|]. destruct O as [(-> & -> & ->)|[(-> & -> & ->)|(-> & -> & ->)]]; cbn; intros [X Y]; discriminate.
Qed.
Theorem C68_unrelated : forall f g, types_are_sets f -> types_are_sets g -> comparable f g ->
  (unrelated f g <-> form_gt f g = Ok true /\ form_gt g f = Ok true).
Proof. exact compare_both. Qed.
Print Assumptions C68_unrelated.

(** [<] is a strict order that cannot tell equal objects apart: nothing is less than itself, two
    objects are not less than each other, and [<] is transitive *)
Lemma compare_strict :
  (forall f, form_lt f f <> Ok true) /\
  (forall f g, types_are_sets f -> types_are_sets g -> form_lt f g = Ok true ->
     form_lt g f = Ok false /\ form_eqb f g = false) /\
  (forall f g h, types_are_sets f -> types_are_sets g -> types_are_sets h ->
     form_lt f g = Ok true -> form_lt g h = Ok true -> form_lt f h = Ok true) /\
  (forall f f' g g', types_are_sets f -> types_are_sets f' -> types_are_sets g -> types_are_sets g' ->
     form_eqb f f' = true -> form_eqb g g' = true -> form_lt f g = form_lt f' g').
Proof.
  split; [|split; [|split]].
  - intros f H. apply lt_refl in H. discriminate.
  - intros f g A B L. destruct (lt_true f g A B L). auto.
  - exact form_lt_trans.
  - intros f f' g g' A A' B B' Q Q'.
    rewrite (proj1 (form_lt_cong f f' g A A' B Q)). apply (proj2 (form_lt_cong g g' f' B B' A' Q')).
Qed.
Theorem C68_strict :
  (forall f, form_lt f f <> Ok true) /\
  (forall f g, types_are_sets f -> types_are_sets g -> form_lt f g = Ok true ->
     form_lt g f = Ok false /\ form_eqb f g = false) /\
  (forall f g h, types_are_sets f -> types_are_sets g -> types_are_sets h ->
     form_lt f g = Ok true -> form_lt g h = Ok true -> form_lt f h = Ok true) /\
  (forall f f' g g', types_are_sets f -> types_are_sets f' -> types_are_sets g -> types_are_sets g' ->
     form_eqb f f' = true -> form_eqb g g' = true -> form_lt f g = form_lt f' g').
Proof. exact compare_strict. Qed.
Print Assumptions C68_strict.

(** Predicates, function terms and numbers: always comparable, never unrelated; and a number is
    less than another exactly if its value is *)
Lemma compare_atoms :
  (forall n ts m us, comparable (FPred n ts) (FPred m us) /\ ~ unrelated (FPred n ts) (FPred m us)) /\
  (forall n ts m us, comparable (FNumFun n ts) (FNumFun m us) /\ ~ unrelated (FNumFun n ts) (FNumFun m us)) /\
  (forall v w x y, num_value v = Some x -> num_value w = Some y ->
     comparable (FNumVal v) (FNumVal w) /\ ~ unrelated (FNumVal v) (FNumVal w) /\
     (form_lt (FNumVal v) (FNumVal w) = Ok true <-> (x < y)%Q)).
Proof.
  split; [|split].
  - intros. split; [constructor|]. now inversion 1.
  - intros. split; [constructor|]. now inversion 1.
  - intros v w x y V W. split; [eapply K_num; eauto|]. split; [now inversion 1|].
    cbn [form_lt]. rewrite <- Qlt_bool_iff.
    destruct (num_lt_cases v w) as [(x' & y' & V' & W' & -> & _)|[(s & t & -> & -> & _)|(C & _)]].
    + assert (x' = x) by congruence. assert (y' = y) by congruence. subst. split; congruence.
    + discriminate.
    + exfalso. destruct v, w; cbn in *; congruence.
Qed.
Theorem C68_atoms_partial :
  (forall n ts m us, comparable (FPred n ts) (FPred m us) /\ ~ unrelated (FPred n ts) (FPred m us)) /\
  (forall n ts m us, comparable (FNumFun n ts) (FNumFun m us) /\ ~ unrelated (FNumFun n ts) (FNumFun m us)) /\
  (forall v w x y, num_value v = Some x -> num_value w = Some y ->
     comparable (FNumVal v) (FNumVal w) /\ ~ unrelated (FNumVal v) (FNumVal w) /\
     (form_lt (FNumVal v) (FNumVal w) = Ok true <-> (x < y)%Q)).
Proof. exact compare_atoms. Qed.
Print Assumptions C68_atoms_partial.

(** two conditional effects with quantified conditions, and three function terms in a row *)
Definition C68_f : form := FWhen (FQuant QForall [x1] (FPred "p" [TVar x1])) (FPred "q" [TConst "c" (Some "t")]).
Definition C68_g : form := FWhen (FQuant QForall [x1; y1] (FPred "p" [TVar x1])) (FPred "a" []).
Example C68_ex :
  types_are_sets C68_f /\ types_are_sets C68_g /\ comparable C68_f C68_g /\ ~ unrelated C68_f C68_g /\
  form_lt C68_f C68_g = Ok true /\
  unrelated (FForall [x1] C68_f) (FForall [y1] C68_f).
Proof.
  split; [|split; [|split; [|split; [|split]]]].
  - cbn. repeat constructor; simpl; tauto.
  - cbn. repeat constructor; simpl; tauto.
  - apply (lt_ok _ _ true). reflexivity.
  - inversion 1; subst; try discriminate.
    match goal with H : unrelated (FQuant _ _ _) _ |- _ => inversion H; subst end.
    + match goal with H : ~ some_vars [x1] [x1; y1] |- _ => apply H, vars_sub; reflexivity end.
    + congruence.
    + discriminate.
  - reflexivity.
  - apply U_forall_vars; intros H; apply vars_sub in H; discriminate.
Qed.
