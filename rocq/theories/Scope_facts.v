(** Conditions of derived predicates: dropping the types of variables and putting them back. *)
From Coq Require Import String List Bool Arith ZArith Lia.
From Verif Require Import Py Names Reqs Logic Built Validation Core Lexer Show Parser UpdateTags.
From Verif Require Import Spec Spec_Parse Spec_Print Spec_Text Spec_Domain.
From Verif Require Import Py_facts Names_facts Logic_facts Ops_facts Built_facts NF_facts Inst_facts Text_facts
  Print_facts Vars_facts FormText_facts.
Import ListNotations.
Open Scope string_scope.
Open Scope list_scope.

(** ** the text of a formula does not show the types of the variables in its atoms *)
Lemma show_bare_term t : show_term (bare_term t) = show_term t.
Proof. now destruct t. Qed.
Lemma show_bare_terms ts : map show_term (map bare_term ts) = map show_term ts.
Proof. rewrite map_map. apply map_ext. apply show_bare_term. Qed.
Lemma show_bare f : show_form (bare f) = show_form f.
Proof.
  induction f using form_ind'; cbn [bare show_form]; auto.
  - unfold show_atom. rewrite show_bare_terms. now destruct ts.
  - now rewrite !show_bare_term.
  - unfold show_atom. rewrite show_bare_terms. now destruct ts.
  - do 3 f_equal. rewrite map_map. f_equal. f_equal. apply map_ext_in. rewrite Forall_forall in H. auto.
  - do 3 f_equal. rewrite map_map. f_equal. f_equal. apply map_ext_in. rewrite Forall_forall in H. auto.
  - now rewrite IHf.
  - now rewrite IHf.
  - now rewrite IHf1, IHf2.
  - now rewrite IHf.
Qed.

(** ** atoms of constructed formulas *)
Fixpoint atoms_ok (f : form) : Prop :=
  match f with
  | FPred n ts => legal_name n /\ name_consistent ts
  | FEq l r => name_consistent [l; r]
  | FNumFun n _ => legal_function n
  | FNumVal _ => True
  | FBinFun _ ops | FBin _ ops => fold_right (fun g p => atoms_ok g /\ p) True ops
  | FNot g => atoms_ok g
  | FQuant _ _ c => atoms_ok c
  | FWhen c e => atoms_ok c /\ atoms_ok e
  | FForall _ e => atoms_ok e
  end.
Lemma atoms_ok_ops c f ops : ops_if c f = Some ops -> atoms_ok f -> Forall atoms_ok ops.
Proof. intros O. apply ops_if_raw in O. subst. destruct c; simpl; now rewrite fold_and_Forall'. Qed.
Lemma built_atoms f : built f -> atoms_ok f.
Proof.
  induction 1 using built_ind'.
  - apply mk_pred_iff in H as (-> & H & N). split; auto.
  - apply mk_eq_iff in H as (-> & H). exact H.
  - pose proof (mk_numfun_Ok _ _ _ H) as ->. unfold mk_numfun in H.
    apply bind_Ok in H as (n' & H & _). apply parse_function_Ok' in H as [_ H]. exact H.
  - exact I.
  - apply (mk_op_P _ (CFun k)); auto. apply atoms_ok_ops. simpl. intros. now rewrite fold_and_Forall'.
  - apply (mk_op_P _ (CBin k)); auto. apply atoms_ok_ops. simpl. intros. now rewrite fold_and_Forall'.
  - exact IHbuilt.
  - exact IHbuilt.
  - split; auto.
  - exact IHbuilt.
Qed.

(** ** the binders of a condition are legal *)
Fixpoint binders_ok (f : form) : Prop :=
  match f with
  | FBinFun _ ops | FBin _ ops => fold_right (fun g p => binders_ok g /\ p) True ops
  | FNot g => binders_ok g
  | FQuant _ vs g => block vs /\ binders_ok g
  | FWhen _ _ | FForall _ _ => False
  | FPred _ ts | FNumFun _ ts => Forall term_legal ts
  | FEq l r => term_legal l /\ term_legal r
  | _ => True
  end.
Lemma bare_name t : t_name (bare_term t) = t_name t.
Proof. now destruct t. Qed.
Lemma bare_legal ts : Forall term_legal (map bare_term ts) -> Forall term_legal ts.
Proof.
  rewrite Forall_map. intros F. eapply Forall_impl; [|exact F]. unfold term_legal. intros t. now rewrite bare_name.
Qed.
Lemma expression_binders c f : expression c (bare f) -> binders_ok f.
Proof.
  induction f using form_ind'; intros E; inversion E; subst; cbn [binders_ok]; auto.
  - apply bare_legal. now apply (fits_legals c).
  - apply fold_and_Forall'. match goal with H : Forall (expression c) (map bare _) |- _ => rename H into FE end.
    rewrite Forall_map in FE. rewrite Forall_forall in *. auto.
  - apply fold_and_Forall'. match goal with H : Forall (expression c) (map bare _) |- _ => rename H into FE end.
    rewrite Forall_map in FE. rewrite Forall_forall in *. auto.
  - destruct ops as [|x [|y [|]]]; try discriminate. cbn [map] in *. inversion H as [|? ? Ix H']; inversion H' as [|? ? Iy _]; subst.
    match goal with H : [?a; ?b] = [bare x; bare y] |- _ => inversion H; subst end. cbn. auto.
  - destruct ops as [|x [|]]; try discriminate. cbn [map] in *. inversion H as [|? ? Ix H']; subst.
    match goal with H : [?a] = [bare x] |- _ => inversion H; subst end. cbn. auto.
Qed.
Lemma condition_binders c f : condition c (bare f) -> binders_ok f.
Proof.
  assert (A : forall f, atom_form c (bare f) -> binders_ok f).
  { intros f0 H. destruct f0; inversion H; subst; cbn [binders_ok].
    - apply bare_legal. now apply (fits_legals c).
    - unfold term_legal. rewrite <- (bare_name l), <- (bare_name r).
      split; now apply (fits_legal c). }
  induction f using form_ind'; intros C; inversion C; subst; cbn [binders_ok];
    try (now match goal with H : atom_form c _ |- _ => apply A in H end); auto.
  - destruct ops as [|x [|y [|]]]; try discriminate. cbn [map] in *.
    match goal with H : [?a; ?b] = [bare x; bare y] |- _ => inversion H; subst end. cbn.
    split; [now apply (expression_binders c)|split; [now apply (expression_binders c)|auto]].
  - apply fold_and_Forall'. match goal with H : Forall (condition c) (map bare _) |- _ => rename H into FE end.
    rewrite Forall_map in FE. rewrite Forall_forall in *. auto.
  - apply fold_and_Forall'. match goal with H : Forall (condition c) (map bare _) |- _ => rename H into FE end.
    rewrite Forall_map in FE. rewrite Forall_forall in *. auto.
  - destruct ops as [|x [|y [|]]]; try discriminate. cbn [map] in *. inversion H as [|? ? Ix H']; inversion H' as [|? ? Iy _]; subst.
    match goal with H : [?a; ?b] = [bare x; bare y] |- _ => inversion H; subst end. cbn. auto.
Qed.

(** ** scopes *)
Definition scope_eq (s s' : scope) : Prop := forall n, same_set (s n) (s' n).
Lemma same_set_refl l : same_set l l.
Proof. intros x. reflexivity. Qed.
Lemma same_set_sym l m : same_set l m -> same_set m l.
Proof. intros H x. symmetry. apply H. Qed.
Lemma same_set_trans l m k : same_set l m -> same_set m k -> same_set l k.
Proof. intros H G x. now rewrite (H x). Qed.
Lemma same_set_nil l : same_set l [] -> l = [].
Proof. intros H. destruct l as [|x l]; auto. exfalso. apply (H x). now left. Qed.
Lemma set_eqb_var_In ws vs w : set_eqb var_eqb ws vs = true -> In w ws -> exists v, In v vs /\ same_var w v.
Proof.
  intros H Hw. unfold set_eqb in H. apply andb_true_iff in H as [H _].
  rewrite subset_In in H. specialize (H w Hw). unfold memb in H. apply existsb_exists in H as (v & Hv & E).
  exists v. split; auto. now apply same_var_eqb.
Qed.
Lemma set_eqb_var_sym ws vs : set_eqb var_eqb ws vs = true -> set_eqb var_eqb vs ws = true.
Proof. intros H. now rewrite (eqv_sym _ (set_eqb_equiv _ var_eqb_equiv)). Qed.
Lemma enter_spec vs s n : repeats_same vs ->
  (forall v, In v vs -> v_name v = n -> same_set (enter vs s n) (v_tags v))
  /\ ((forall v, In v vs -> v_name v <> n) -> enter vs s n = s n).
Proof.
  intros R. unfold enter. destruct (find (fun v => String.eqb (v_name v) n) vs) as [w|] eqn:F.
  - apply find_some in F as [Hw E]. apply String.eqb_eq in E. split.
    + intros v Hv Ev. apply R; auto. congruence.
    + intros N. destruct (N w Hw E).
  - split.
    + intros v Hv Ev. pose proof (find_none _ _ F v Hv) as C. cbn in C. rewrite Ev, String.eqb_refl in C. discriminate.
    + auto.
Qed.
Lemma in_names vs n : (exists v, In v vs /\ v_name v = n) \/ (forall v : var, In v vs -> v_name v <> n).
Proof.
  induction vs as [|v vs [(w & Hw & E)|N]]; [right; intros ? []| |].
  - left. exists w. split; auto. now right.
  - destruct (string_dec (v_name v) n) as [E|E]; [left; exists v; split; auto; now left|].
    right. intros w [<-|Hw]; auto.
Qed.
Lemma enter_eq vs ws s s' : repeats_same vs -> repeats_same ws -> set_eqb var_eqb ws vs = true ->
  scope_eq s s' -> scope_eq (enter vs s) (enter ws s').
Proof.
  intros R R' Q E n. destruct (enter_spec vs s n R) as [A1 A2], (enter_spec ws s' n R') as [B1 B2].
  destruct (in_names vs n) as [(v & Hv & En)|Nv].
  - destruct (set_eqb_var_In vs ws v) as (w & Hw & W1 & W2); [now apply set_eqb_var_sym|auto|].
    apply (same_set_trans _ (v_tags v)); [now apply A1|].
    apply (same_set_trans _ (v_tags w)); [exact W2|]. apply same_set_sym, B1; auto. congruence.
  - rewrite A2 by auto. rewrite B2; [apply E|]. intros w Hw Ew.
    destruct (set_eqb_var_In ws vs w Q Hw) as (v & Hv & V1 & _). apply (Nv v Hv). congruence.
Qed.

(** with equal scopes, formulas that agree up to the types of their variables are equal *)
Lemma bare_term_eqb s s' t u : scope_eq s s' -> in_scope s t -> in_scope s' u ->
  term_eqb (bare_term t) (bare_term u) = true -> term_eqb t u = true.
Proof.
  intros E T U H. destruct t as [n g|v], u as [m h|w]; cbn in *; auto.
  unfold var_eqb in H. cbn in H. apply andb_true_iff in H as [H _]. apply String.eqb_eq in H.
  apply same_var_eqb. split; auto. apply (same_set_trans _ _ _ T).
  apply (same_set_trans _ _ _ (E _)). rewrite H. now apply same_set_sym.
Qed.
Lemma bare_terms_eqb s s' ts us : scope_eq s s' -> Forall (in_scope s) ts -> Forall (in_scope s') us ->
  list_eqb term_eqb (map bare_term ts) (map bare_term us) = true -> list_eqb term_eqb ts us = true.
Proof.
  intros E T. revert us. induction T as [|t ts T F IH]; intros [|u us] U H; try discriminate; auto.
  inversion U; subst. cbn in *. apply andb_true_iff in H as [Q1 Q2].
  rewrite (bare_term_eqb s s'), IH; auto.
Qed.
Lemma bare_eqf f : forall g s s', scope_eq s s' -> scoped s f -> scoped s' g -> binders_ok f -> binders_ok g ->
  eqf (bare f) (bare g) -> eqf f g.
Proof.
  assert (X : forall ops, Forall (fun f => forall g s s', scope_eq s s' -> scoped s f -> scoped s' g ->
     binders_ok f -> binders_ok g -> eqf (bare f) (bare g) -> eqf f g) ops ->
     forall ops' s s', scope_eq s s' -> Forall (scoped s) ops -> Forall (scoped s') ops' ->
     Forall binders_ok ops -> Forall binders_ok ops' ->
     list_eqb form_eqb (map bare ops) (map bare ops') = true -> list_eqb form_eqb ops ops' = true).
  { induction 1 as [|f0 ops H F IH]; intros [|g ops'] s s' E S1 S2 B1 B2 Q; try discriminate; auto.
    inversion S1; inversion S2; inversion B1; inversion B2; subst. cbn in *. apply andb_true_iff in Q as [Q1 Q2].
    apply andb_true_iff. split; [eapply H; eauto|eapply IH; eauto]. }
  unfold eqf in *.
  induction f using form_ind'; intros g s s' E S1 S2 B1 B2 Q; destruct g; try discriminate;
    cbn [bare form_eqb scoped binders_ok] in *.
  - apply andb_true_iff in Q as [Q1 Q2]. rewrite Q1. now apply (bare_terms_eqb s s').
  - apply andb_true_iff in Q as [Q1 Q2]. apply andb_true_iff.
    split; eapply (bare_term_eqb s s'); eauto; tauto.
  - apply andb_true_iff in Q as [Q1 Q2]. rewrite Q1. now apply (bare_terms_eqb s s').
  - exact Q.
  - apply andb_true_iff in Q as [Q1 Q2]. rewrite Q1. rewrite fold_and_Forall' in *. eapply X; eauto.
  - apply andb_true_iff in Q as [Q1 Q2]. rewrite Q1. rewrite fold_and_Forall' in *. eapply X; eauto.
  - eapply IHf; eauto.
  - apply andb_true_iff in Q as [Q1 Q2]. apply andb_true_iff in Q1 as [Q0 Q1]. rewrite Q0, Q1. cbn [andb].
    destruct B1 as [B1 B1'], B2 as [B2 B2']. eapply IHf; [|exact S1|exact S2|exact B1'|exact B2'|exact Q2].
    apply enter_eq; auto; [apply B1|apply B2|now apply set_eqb_var_sym].
  - contradiction.
  - contradiction.
Qed.

Lemma ops_if_bare c f : ops_if c f = None -> ops_if c (bare f) = None.
Proof. destruct f, c; cbn; auto; destruct (_ : bool); auto; discriminate. Qed.
Lemma bare_NoDupE s ops : Forall (scoped s) ops -> Forall binders_ok ops ->
  NoDupE form_eqb ops -> NoDupE form_eqb (map bare ops).
Proof.
  intros F B N. induction N as [|x l M N IH]; [constructor|]. inversion F; inversion B; subst.
  cbn [map]. constructor; auto. destruct (memb form_eqb (bare x) (map bare l)) eqn:E; auto.
  rewrite <- M. unfold memb in *. apply existsb_exists in E as (y & Hy & E).
  apply in_map_iff in Hy as (y' & <- & Hy). symmetry. apply existsb_exists. exists y'. split; auto.
  rewrite !Forall_forall in *.
  apply (bare_eqf x y' s s); auto. intros n. apply same_set_refl.
Qed.
Lemma bare_nfn c s ops : Forall (scoped s) ops -> Forall binders_ok ops -> nfn c ops -> nfn c (map bare ops).
Proof.
  intros F B. unfold nfn. rewrite map_length.
  assert (X : Forall (fun f => ops_if c f = None) ops -> Forall (fun f => ops_if c f = None) (map bare ops)).
  { rewrite Forall_map. apply Forall_impl. apply ops_if_bare. }
  destruct (metaclass c) as [[]|]; auto.
  - intros (H1 & H2 & H3). split; auto. split; auto. now apply (bare_NoDupE s).
  - intros [H|(H1 & H2)]; auto. right. split; auto. now apply (bare_NoDupE s).
Qed.
Lemma bare_nff f : forall s, scoped s f -> binders_ok f -> nff f -> nff (bare f).
Proof.
  induction f using form_ind'; intros s S' B N; cbn [bare scoped binders_ok] in *; auto.
  - apply (nff_raw (CFun k)) in N as [N1 N2]. rewrite fold_and_Forall' in *. apply (nff_raw (CFun k)). split.
    + rewrite Forall_map. rewrite Forall_forall in *. eauto.
    + now apply (bare_nfn _ s).
  - apply (nff_raw (CBin k)) in N as [N1 N2]. rewrite fold_and_Forall' in *. apply (nff_raw (CBin k)). split.
    + rewrite Forall_map. rewrite Forall_forall in *. eauto.
    + now apply (bare_nfn _ s).
  - cbn in *. eauto.
  - cbn in *. destruct N, B. split; eauto.
  - contradiction.
  - contradiction.
Qed.

(** ** putting the types back *)
Definition scope_map (s : scope) (m : tagmap) : Prop :=
  forall n, match dict_get String.eqb n m with
            | Some gs => same_set gs (s n) /\ Forall legal_type gs
            | None => s n = []
            end.
Lemma replace_scoped s m t u : scope_map s m -> in_scope s t -> term_legal t -> same_term u (bare_term t) ->
  exists u', replace_term m u = Ok u' /\ same_term u' t.
Proof.
  intros M S' L (E & N & T). destruct t as [n g|v]; cbn [bare_term] in *.
  - destruct u as [n' g'|w]; [|discriminate]. exists (TConst n' g'). split; [reflexivity|]. split; auto.
  - destruct u as [n' g'|w]; [discriminate|]. cbn in N, T, L, S'. apply same_set_nil in T. cbn [replace_term].
    specialize (M (v_name v)). rewrite N. destruct (dict_get String.eqb (v_name v) m) as [gs|].
    + destruct M as [M1 M2]. unfold with_type_tags.
      assert (K : mk_var (v_name w) (CSet gs) = Ok (mkVar (v_name w) (dedup String.eqb gs))).
      { apply mk_var_Ok. cbn [coll_items]. split; auto. split; [rewrite N; exact L|]. split; auto. exact I. }
      rewrite K. cbn [bind]. eexists. split; [reflexivity|].
      assert (V : same_var (mkVar (v_name w) (dedup String.eqb gs)) v).
      { split; auto. cbn. intros x. rewrite dedup_string_In. rewrite (M1 x). symmetry. apply S'. }
      split; [now apply same_var_eqb|]. split; [exact N|apply V].
    + exists (TVar w). split; auto.
      assert (V : same_var w v).
      { split; auto. rewrite T. intros x. rewrite (S' x), M. reflexivity. }
      split; [now apply same_var_eqb|]. split; [exact N|apply V].
Qed.
Lemma replaces_scoped s m ts us : scope_map s m -> Forall (in_scope s) ts -> Forall term_legal ts ->
  Forall2 same_term us (map bare_term ts) ->
  exists us', mapR (replace_term m) us = Ok us' /\ Forall2 same_term us' ts.
Proof.
  intros M. revert us. induction ts as [|t ts IH]; intros us S' L F; inversion F; subst; [exists []; split; auto; constructor|].
  inversion S'; inversion L; subst.
  destruct (replace_scoped s m t x) as (u' & R & U); auto.
  destruct (IH l) as (us' & RS & US); auto.
  exists (u' :: us'). cbn. rewrite R. cbn. rewrite RS. auto.
Qed.
Lemma bind_vars_get vs : forall m n,
  dict_get String.eqb n (bind_vars m vs)
  = match find (fun v => String.eqb (v_name v) n) (rev vs) with
    | Some v => Some (v_tags v)
    | None => dict_get String.eqb n m
    end.
Proof.
  induction vs as [|v vs IH]; intros m n; [reflexivity|].
  unfold bind_vars in *. cbn [fold_left rev]. rewrite IH.
  assert (FA : forall l, find (fun v => String.eqb (v_name v) n) (l ++ [v])
               = match find (fun v => String.eqb (v_name v) n) l with Some w => Some w
                 | None => if String.eqb (v_name v) n then Some v else None end).
  { clear. induction l as [|w l IH]; cbn; auto. destruct (String.eqb (v_name w) n); auto. }
  rewrite FA. destruct (find _ (rev vs)) as [w|]; auto.
  destruct (String.eqb (v_name v) n) eqn:E.
  - rewrite dict_get_set by apply string_eqb_equiv. rewrite String.eqb_sym in E. now rewrite E.
  - rewrite dict_get_set by apply string_eqb_equiv. rewrite String.eqb_sym in E. now rewrite E.
Qed.
Lemma bind_vars_scope s m vs ws : scope_map s m -> block vs -> set_eqb var_eqb ws vs = true ->
  scope_map (enter vs s) (bind_vars m ws).
Proof.
  intros M (L & _ & _ & R) Q n. rewrite bind_vars_get. destruct (enter_spec vs s n R) as [A1 A2].
  destruct (find (fun v => String.eqb (v_name v) n) (rev ws)) as [w|] eqn:F.
  - apply find_some in F as [Hw E]. apply in_rev in Hw. apply String.eqb_eq in E.
    destruct (set_eqb_var_In ws vs w Q Hw) as (v & Hv & V1 & V2). split.
    + apply (same_set_trans _ _ _ V2). apply same_set_sym, A1; auto. congruence.
    + rewrite Forall_forall in L. destruct (L v Hv) as (_ & L2 & _). rewrite Forall_forall in *.
      intros g Hg. apply L2. now apply V2.
  - rewrite A2; [apply M|]. intros v Hv Ev.
    destruct (set_eqb_var_In vs ws v) as (w & Hw & W1 & _); [now apply set_eqb_var_sym|auto|].
    pose proof (find_none _ _ F w (proj1 (in_rev _ _) Hw)) as C. cbn in C.
    rewrite <- W1, Ev, String.eqb_refl in C. discriminate.
Qed.
Lemma update_sim f : forall g s m, sim g (bare f) -> scoped s f -> scope_map s m -> binders_ok f ->
  atoms_ok f -> nff f -> exists g', update_type_tags m g = Ok g' /\ sim g' f.
Proof.
  assert (X : forall ops, Forall (fun f => forall g s m, sim g (bare f) -> scoped s f -> scope_map s m -> binders_ok f ->
     atoms_ok f -> nff f -> exists g', update_type_tags m g = Ok g' /\ sim g' f) ops ->
     forall gs s m, Forall2 sim gs (map bare ops) -> Forall (scoped s) ops -> scope_map s m ->
     Forall binders_ok ops -> Forall atoms_ok ops -> Forall nff ops ->
     exists gs', mapR (update_type_tags m) gs = Ok gs' /\ Forall2 sim gs' ops).
  { induction 1 as [|f0 ops H F IH]; intros gs s m E S1 M B A N; inversion E; subst; [exists []; split; auto; constructor|].
    inversion S1; inversion B; inversion A; inversion N; subst.
    destruct (H x s m) as (g' & G & Q); auto. destruct (IH l s m) as (gs' & GS & QS); auto.
    exists (g' :: gs'). cbn. rewrite G. cbn. rewrite GS. auto. }
  induction f using form_ind'; intros g s m E S1 M B A N; inversion E; subst;
    cbn [scoped binders_ok atoms_ok update_type_tags] in *.
  - match goal with H : Forall2 same_term _ _ |- _ => rename H into ST end.
    destruct (replaces_scoped s m ts us M S1 B ST) as (us' & R & U). rewrite R. cbn [bind].
    exists (FPred n us'). split; [|now constructor]. apply mk_pred_iff. split; auto. split; [apply A|].
    apply (same_terms_consistent us' ts); auto. apply A.
  - match goal with H1 : same_term ?a (bare_term l), H2 : same_term ?b (bare_term r) |- _ => rename H1 into T1, H2 into T2 end.
    destruct (replace_scoped s m l _ M (proj1 S1) (proj1 B) T1) as (l' & L1 & L2).
    destruct (replace_scoped s m r _ M (proj2 S1) (proj2 B) T2) as (r' & R1 & R2).
    rewrite L1. cbn [bind]. rewrite R1. cbn [bind]. exists (FEq l' r'). split; [|now constructor].
    apply mk_eq_iff. split; auto. apply (same_terms_consistent _ [l; r]); auto.
  - match goal with H : Forall2 same_term _ _ |- _ => rename H into ST end.
    destruct (replaces_scoped s m ts us M S1 B ST) as (us' & R & U). rewrite R. cbn [bind].
    exists (FNumFun n us'). split; [|now constructor].
    unfold mk_numfun. now rewrite (proj2 (parse_function_Ok n) A).
  - eexists. split; [reflexivity|]. now constructor.
  - apply (nff_raw (CFun k)) in N as [N1 N2]. rewrite fold_and_Forall' in *.
    match goal with H : Forall2 sim _ _ |- _ => rename H into FS end.
    destruct (X ops H _ s m FS) as (gs & G & Q); auto. rewrite G. cbn [bind]. eexists. split; [reflexivity|].
    now apply (sim_node (CFun k)).
  - apply (nff_raw (CBin k)) in N as [N1 N2]. rewrite fold_and_Forall' in *.
    match goal with H : Forall2 sim _ _ |- _ => rename H into FS end.
    destruct (X ops H _ s m FS) as (gs & G & Q); auto. rewrite G. cbn [bind]. eexists. split; [reflexivity|].
    now apply (sim_node (CBin k)).
  - cbn in N. match goal with H : sim _ (bare f) |- _ => rename H into SF end.
    destruct (IHf _ s m SF) as (g' & G & Q); auto. rewrite G. cbn [bind]. eexists. split; [reflexivity|]. now constructor.
  - destruct B as [B1 B2]. destruct N as [N1 N2].
    match goal with H : sim _ (bare f), H' : same_block ?w vs |- _ => rename H into SF, H' into SV end.
    destruct SV as [SV SV'].
    destruct (IHf _ (enter vs s) (bind_vars m ws) SF) as (g' & G & Q); auto; [now apply bind_vars_scope|].
    rewrite G. cbn [bind]. eexists. split; [reflexivity|]. constructor; auto. split.
    2:{ intros Nd. rewrite (SV' Nd). apply dedup_id; auto using var_eqb_equiv. }
    apply (eqv_trans _ (set_eqb_equiv _ var_eqb_equiv) _ ws); auto. apply dedup_set_eqb. apply var_eqb_equiv.
  - contradiction.
  - contradiction.
Qed.
