(** Which formulas come back from their text. *)
From Coq Require Import String List Bool Arith ZArith Lia.
From Verif Require Import Py Names Reqs Logic Built Validation Core Lexer Show Parser.
From Verif Require Import Spec_Parse Spec_Print Spec_Numbers Spec_Text Spec_TextExact.
From Verif Require Import Py_facts Names_facts Logic_facts Built_facts Ops_facts NF_facts Lex_facts Parse_facts Text_facts
  Print_facts Number_facts NumShow_facts Vars_facts Order_facts Feature_facts FormText_facts.
Import ListNotations.
Open Scope string_scope.
Open Scope list_scope.

(** ** sizes *)
Lemma forms_size_app l m : forms_size (l ++ m) = forms_size l + forms_size m.
Proof. unfold forms_size. induction l; cbn; auto. rewrite IHl. lia. Qed.
Lemma forms_size_cons f l : forms_size (f :: l) = form_size f + forms_size l.
Proof. reflexivity. Qed.
Lemma raw_size c ops : form_size (raw_node c ops) = S (forms_size ops).
Proof. destruct c; reflexivity. Qed.
Lemma leaves_size c f : forms_size (leaves c f) <= form_size f
  /\ (forms_size (leaves c f) = form_size f -> leaves c f = [f]).
Proof.
  assert (X : forall ops, Forall (fun f => forms_size (leaves c f) <= form_size f
    /\ (forms_size (leaves c f) = form_size f -> leaves c f = [f])) ops ->
    forms_size (flat_map (leaves c) ops) <= forms_size ops).
  { induction 1; cbn [flat_map]; [auto|]. rewrite forms_size_app, forms_size_cons. lia. }
  induction f using form_ind'; try (cbn; split; [lia|auto]).
  - specialize (X ops H). cbn [leaves]. destruct c as [k'|k']; [|destruct (bfun_eqb k' k)].
    2:{ change (form_size (FBinFun k ops)) with (S (forms_size ops)). lia. }
    all: split; auto; unfold forms_size at 1; cbn; lia.
  - specialize (X ops H). cbn [leaves]. destruct c as [k'|k']; [destruct (bop_eqb k' k)|].
    { change (form_size (FBin k ops)) with (S (forms_size ops)). lia. }
    all: split; auto; unfold forms_size at 1; cbn; lia.
Qed.
Lemma flat_leaves_size c ops : forms_size (flat_map (leaves c) ops) <= forms_size ops
  /\ (forms_size (flat_map (leaves c) ops) = forms_size ops -> flat_map (leaves c) ops = ops).
Proof.
  induction ops as [|f ops [IH1 IH2]]; [split; auto|]. cbn [flat_map].
  rewrite forms_size_app, forms_size_cons. destruct (leaves_size c f) as [L1 L2]. split; [lia|].
  intros E. rewrite L2, IH2 by lia. reflexivity.
Qed.
Lemma dedup_size ops : forms_size (dedup form_eqb ops) <= forms_size ops
  /\ (forms_size (dedup form_eqb ops) = forms_size ops -> dedup form_eqb ops = ops).
Proof.
  assert (X : forall l seen, forms_size (dedup_from form_eqb seen l) <= forms_size l
    /\ (forms_size (dedup_from form_eqb seen l) = forms_size l -> dedup_from form_eqb seen l = l)).
  { induction l as [|f l IH]; intros seen; cbn [dedup_from]; [split; auto|].
    destruct (memb form_eqb f seen).
    - pose proof (form_size_pos f). destruct (IH seen). rewrite forms_size_cons. split; lia.
    - destruct (IH (f :: seen)) as [H1 H2]. rewrite !forms_size_cons. split; [lia|]. intros E. f_equal. apply H2. lia. }
  apply X.
Qed.
Lemma mk_op_size c ops : form_size (mk_op c ops) <= S (forms_size ops)
  /\ (form_size (mk_op c ops) = S (forms_size ops) -> mk_op c ops = raw_node c ops).
Proof.
  unfold mk_op. destruct (metaclass c) as [idem|]; [|rewrite raw_size; auto]. rewrite simplify_spec.
  set (old := if idem then dedup form_eqb ops else ops).
  assert (O : forms_size old <= forms_size ops /\ (forms_size old = forms_size ops -> old = ops)).
  { subst old. destruct idem; [apply dedup_size|auto]. }
  clearbody old. destruct O as [O1 O2].
  assert (Y : forall l, forms_size l <= forms_size old -> (forms_size l = forms_size old -> l = old) ->
    let r := match l with [x] => if idem then x else raw_node c [x] | _ => raw_node c l end in
    form_size r <= S (forms_size ops) /\ (form_size r = S (forms_size ops) -> r = raw_node c ops)).
  { intros l L1 L2. assert (Z : form_size (raw_node c l) <= S (forms_size ops)
      /\ (form_size (raw_node c l) = S (forms_size ops) -> raw_node c l = raw_node c ops)).
    { rewrite raw_size. split; [lia|]. intros E. rewrite L2, O2 by lia. reflexivity. }
    cbv zeta. destruct l as [|x [|y l]]; auto. destruct idem; auto. rewrite forms_size_cons in L1. split; lia. }
  assert (D : forall l, forms_size (dedup form_eqb (flat_map (leaves c) l)) <= forms_size l
    /\ (forms_size (dedup form_eqb (flat_map (leaves c) l)) = forms_size l -> dedup form_eqb (flat_map (leaves c) l) = l)).
  { intros l. destruct (dedup_size (flat_map (leaves c) l)) as [A1 A2], (flat_leaves_size c l) as [B1 B2].
    split; [lia|]. intros E. rewrite A2 by lia. apply B2. lia. }
  destruct old as [|x [|y old]].
  - apply (Y []); auto.
  - apply (Y [x]); auto.
  - destruct (D (x :: y :: old)) as [D1 D2]. pose proof (Y _ D1 D2) as R. cbv zeta in R. destruct (dedup form_eqb (flat_map (leaves c) (x :: y :: old))) as [|a [|b l]]; exact R.
Qed.

(** ** == and sizes, constants *)
Lemma eqf_sizes l m : Forall2 (fun f g => form_size f = form_size g) l m -> forms_size l = forms_size m.
Proof. induction 1; auto. rewrite !forms_size_cons. lia. Qed.
Lemma eqf_inv_ops (P : form -> form -> Prop) l ops :
  Forall (fun g => forall f, eqf f g -> P f g) ops -> list_eqb form_eqb l ops = true -> Forall2 P l ops.
Proof.
  intros F E. apply list_eqb_Forall2 in E. revert F. induction E; intros F; constructor; inversion F; subst; auto.
Qed.
Lemma eqf_size g : forall f, eqf f g -> form_size f = form_size g.
Proof.
  unfold eqf. induction g using form_ind'; intros f0 E; destruct f0; try discriminate E; auto; cbn [form_eqb] in E;
    repeat match goal with H : _ && _ = true |- _ => apply andb_true_iff in H as [? H] end.
  - change (S (forms_size ops0) = S (forms_size ops)). f_equal. apply eqf_sizes. now apply (eqf_inv_ops (fun f g => form_size f = form_size g)).
  - change (S (forms_size ops0) = S (forms_size ops)). f_equal. apply eqf_sizes. now apply (eqf_inv_ops (fun f g => form_size f = form_size g)).
  - cbn. auto.
  - cbn. auto.
  - cbn. auto.
  - cbn. auto.
Qed.
Definition cnames (f : form) : list string := map fst (constants_of f).
Definition tnames (ts : list term) : list string := map fst (flat_map term_constants ts).
Lemma term_cnames t u : term_eqb t u = true -> map fst (term_constants t) = map fst (term_constants u).
Proof. destruct t, u; cbn; try discriminate; auto. intros E. apply String.eqb_eq in E. now subst. Qed.
Lemma terms_cnames us ts : list_eqb term_eqb us ts = true -> tnames us = tnames ts.
Proof.
  intros E. apply list_eqb_Forall2 in E. unfold tnames. induction E; auto. cbn [flat_map]. rewrite !map_app. f_equal; auto. now apply term_cnames.
Qed.
Lemma flat_cnames l m : Forall2 (fun f g => cnames f = cnames g) l m ->
  map fst (flat_map constants_of l) = map fst (flat_map constants_of m).
Proof. induction 1; auto. cbn [flat_map]. rewrite !map_app. f_equal; auto. Qed.
Lemma eqf_cnames g : forall f, eqf f g -> cnames f = cnames g.
Proof.
  unfold eqf. induction g using form_ind'; intros f0 E; destruct f0; try discriminate E; auto; cbn [form_eqb] in E;
    repeat match goal with H : _ && _ = true |- _ => apply andb_true_iff in H as [? H] end; unfold cnames; cbn [constants_of].
  - now apply terms_cnames.
  - rewrite !map_app. f_equal; now apply term_cnames.
  - now apply terms_cnames.
  - apply flat_cnames. now apply (eqf_inv_ops (fun f g => cnames f = cnames g)).
  - apply flat_cnames. now apply (eqf_inv_ops (fun f g => cnames f = cnames g)).
  - now apply IHg.
  - now apply IHg.
  - rewrite !map_app. f_equal; [now apply IHg1|now apply IHg2].
  - now apply IHg.
Qed.
(** equal, and with the same constants *)
Definition twin (g f : form) : Prop := eqf g f /\ constants_of g = constants_of f.
Lemma app_split {A} (a b c d : list A) : length a = length c -> a ++ b = c ++ d -> a = c /\ b = d.
Proof.
  revert c. induction a as [|x a IH]; intros [|y c] L E; try discriminate L; auto.
  injection L as L. inversion E; subst. destruct (IH c L H1) as [-> ->]. auto.
Qed.
Lemma cnames_length f g : eqf f g -> length (constants_of f) = length (constants_of g).
Proof. intros E. apply eqf_cnames in E. unfold cnames in E. rewrite <- (map_length fst), E. apply map_length. Qed.
Lemma twins l m : Forall2 eqf l m -> flat_map constants_of l = flat_map constants_of m -> Forall2 twin l m.
Proof.
  induction 1 as [|f g l m E F IH]; cbn [flat_map]; intros H; constructor.
  - apply app_split in H; [|now apply cnames_length]. split; [auto|apply H].
  - apply IH. apply app_split in H; [|now apply cnames_length]. apply H.
Qed.
Lemma twin_raw c l m : twin (raw_node c l) (raw_node c m) -> Forall2 twin l m.
Proof.
  intros [E H]. assert (E' : list_eqb form_eqb l m = true).
  { unfold eqf in E. destruct c; cbn in E; apply andb_true_iff in E; apply E. }
  apply twins; [now apply list_eqb_Forall2|]. destruct c; exact H.
Qed.
(** ** what the constructors ask *)
Fixpoint sound (f : form) : Prop :=
  match f with
  | FPred n ts => legal_name n /\ name_consistent ts
  | FEq l r => name_consistent [l; r]
  | FNumFun n ts => legal_function n
  | FNumVal _ => True
  | FBinFun _ ops | FBin _ ops => fold_right (fun g p => sound g /\ p) True ops
  | FNot g | FQuant _ _ g | FForall _ g => sound g
  | FWhen g e => sound g /\ sound e
  end.
Lemma sound_raw c ops : sound (raw_node c ops) <-> Forall sound ops.
Proof. destruct c; cbn; apply fold_and_Forall'. Qed.
Lemma built_sound f : built f -> sound f.
Proof.
  induction 1 using built_ind'; cbn [sound mk_quant mk_forall mk_not mk_when]; auto.
  - apply mk_pred_iff in H as (-> & H). exact H.
  - apply mk_eq_iff in H as (-> & H). exact H.
  - pose proof (mk_numfun_Ok _ _ _ H) as ->. unfold mk_numfun in H. apply bind_Ok in H as (n' & H1 & H).
    injection H as ->. now apply parse_function_Ok.
  - apply (mk_op_P sound (CFun k)); auto.
    + intros f0 o O F. apply ops_if_raw in O. subst. now apply sound_raw in F.
    + intros l. apply sound_raw.
  - apply (mk_op_P sound (CBin k)); auto.
    + intros f0 o O F. apply ops_if_raw in O. subst. now apply sound_raw in F.
    + intros l. apply sound_raw.
Qed.
Lemma legal_readable f : legal_parts f -> sound f -> readable f.
Proof.
  assert (X : forall ops, Forall (fun f => legal_parts f -> sound f -> readable f) ops -> Forall legal_parts ops ->
    Forall sound ops -> Forall readable ops).
  { intros ops H L S'. rewrite Forall_forall in *. auto. }
  induction f using form_ind'; intros L S'; inversion L; subst; cbn [readable sound] in *; auto.
  - split; auto. apply S'.
  - split; auto. apply S'.
  - destruct (show_num_numeral v) as (q & r & N & _); eauto using numeral_dotted.
  - apply fold_and_Forall'. apply fold_and_Forall' in S'. auto.
  - apply fold_and_Forall'. apply fold_and_Forall' in S'. auto.
  - destruct S'. auto.
Qed.

(** ** alike formulas are twins *)
Lemma same_term_constants t u : same_term t u -> term_constants t = term_constants u.
Proof.
  intros (E & N & G). destruct t as [n g|v], u as [m h|w]; cbn in *; try discriminate E; auto. subst m.
  destruct g as [g|], h as [h|]; auto; cbn in G.
  - destruct (proj1 (G g)) as [->|[]]; [now left|auto].
  - exfalso. apply (G g). now left.
  - exfalso. apply (G h). now left.
Qed.
Lemma same_terms_constants us ts : Forall2 same_term us ts -> flat_map term_constants us = flat_map term_constants ts.
Proof. induction 1; auto. cbn. f_equal; auto. now apply same_term_constants. Qed.
Lemma sim_constants g : forall f, sim f g -> constants_of f = constants_of g.
Proof.
  assert (X : forall l m, Forall (fun g => forall f, sim f g -> constants_of f = constants_of g) m -> Forall2 sim l m ->
    flat_map constants_of l = flat_map constants_of m).
  { intros l m H F. induction F; auto. inversion H; subst. cbn. f_equal; auto. }
  induction g using form_ind'; intros f0 E; inversion E; subst; cbn [constants_of]; auto using same_terms_constants.
  - f_equal; now apply same_term_constants.
  - f_equal; auto.
Qed.
Lemma sim_twin f g : sim f g -> twin f g.
Proof. intros H. split; [now apply sim_eqf|now apply sim_constants]. Qed.

(** ** variables *)
Lemma block_exact vs ws : Forall legal_var vs -> back (flat_map plain_sx vs) = Ok ws ->
  set_eqb var_eqb (dedup var_eqb ws) vs = true -> block vs.
Proof.
  intros L B E.
  assert (F : Forall2 same_var ws vs).
  { pose proof var_eqb_equiv as Q.
    assert (D : forall v, {one_type v} + {~ one_type v}) by (intros; apply le_dec).
    destruct (Forall_dec one_type D vs) as [O|O].
    2:{ unfold back, typed_list_variable in B. rewrite tl_vars_plain in B by auto. discriminate. }
    rewrite plain_items in B by auto.
    apply back_items in B as (-> & A); [|now apply items_of_NoDup|now apply items_of_legal].
    assert (I : forall v, In v vs -> exists p, In p (meaning (items_of vs)) /\ var_eqb (var_of p) v = true).
    { intros v Hv. apply (eqv_trans _ (set_eqb_equiv _ Q) (map var_of (meaning (items_of vs)))) in E.
      2:{ rewrite (eqv_sym _ (set_eqb_equiv _ Q)). now apply dedup_set_eqb. }
      unfold set_eqb, subset in E. apply andb_true_iff in E as [_ E]. rewrite forallb_forall in E.
      specialize (E v Hv). unfold memb in E. apply existsb_exists in E as (w & W & E).
      apply in_map_iff in W as (p & <- & W). exists p. split; auto. now rewrite (eqv_sym _ Q). }
    assert (N : map fst (meaning (items_of vs)) = map v_name vs).
    { rewrite meaning_names. unfold items_of. rewrite map_map. reflexivity. }
    assert (A' : forall p q, In p (meaning (items_of vs)) -> In q (meaning (items_of vs)) -> fst p = fst q -> same_set (snd p) (snd q)).
    { intros [a gs] [b hs] Hp Hq. cbn. intros ->. now apply (A b). }
    assert (K : forall l us, map fst l = map v_name us -> incl l (meaning (items_of vs)) -> incl us vs ->
      Forall2 same_var (map var_of l) us).
    { induction l as [|p l IH]; intros [|u us] E1 H1 H2; try discriminate E1; constructor.
      - injection E1 as E1 E2. destruct (I u) as (q & Hq & Q'); [apply H2; now left|].
        apply same_var_eqb in Q' as [Q1 Q2]. cbn in Q1, Q2. split; [exact E1|]. cbn.
        assert (same_set (snd p) (snd q)) by (apply A'; auto; [apply H1; now left|congruence]).
        intros x. rewrite (H x). apply Q2.
      - injection E1 as E1 E2. apply IH; auto; intros x Hx; [apply H1|apply H2]; now right. }
    apply K; auto; intros x; auto. }
  destruct (proj1 (back_plain vs L)) as (O & U & R); [now exists ws|]. repeat (split; auto).
Qed.

Section Context.
  Variable c : gctx.
  Hypothesis V : g_vars c = typed_list_variable.

  (** ** terms *)
  Lemma term_exact t r u : legal_term t -> resolve c (pterm_of t) = Ok r -> constant_or_variable c r = Ok u ->
    term_eqb u t = true -> term_constants u = term_constants t -> fits c t.
  Proof.
    intros L R U E K. destruct t as [n g|v]; cbn in *.
    - split; [exact L|]. apply bind_Ok in R as (k & R & X). injection X as <-. injection U as <-.
      destruct k as [m h|w]; [|discriminate E]. cbn in K. injection K as -> ->. exact R.
    - split; [exact L|]. injection R as <-. cbn in U.
      destruct (dict_get String.eqb (v_name v) (g_params c)) as [w|].
      + injection U as <-. now apply same_var_eqb.
      + apply bind_Ok in U as (w & W & X). injection X as <-. apply mk_var_Ok in W as (-> & _). cbn in E.
        unfold var_eqb in E. cbn in E. apply andb_true_iff in E as [_ E].
        destruct (v_tags v); auto. discriminate E.
  Qed.
  Lemma terms_exact ts : Forall legal_term ts -> forall rs us,
    mapR (resolve c) (map pterm_of ts) = Ok rs -> mapR (constant_or_variable c) rs = Ok us ->
    list_eqb term_eqb us ts = true -> flat_map term_constants us = flat_map term_constants ts -> Forall (fits c) ts.
  Proof.
    induction 1 as [|t ts L F IH]; intros rs us R U E K; constructor; cbn [map mapR] in R;
      apply bind_Ok in R as (r & R1 & R); apply bind_Ok in R as (rs' & R2 & R); injection R as <-;
      cbn [mapR] in U; apply bind_Ok in U as (u & U1 & U); apply bind_Ok in U as (us' & U2 & U); injection U as <-;
      cbn [list_eqb] in E; apply andb_true_iff in E as [E1 E2]; cbn [flat_map] in K.
    - apply app_split in K as [K _]; [now apply (term_exact t r u)|].
      rewrite <- (map_length fst), (term_cnames u t E1). apply map_length.
    - apply app_split in K as [_ K]; [now apply (IH rs' us')|].
      rewrite <- (map_length fst), (term_cnames u t E1). apply map_length.
  Qed.

  (** ** atoms *)
  Lemma atomic_pred_form n args g : atomic_pred c n args = Ok g -> exists ts, g = FPred n ts.
  Proof.
    unfold atomic_pred. intros H. do 3 apply bind_Ok in H as (? & _ & H). apply mk_pred_Ok in H. eauto.
  Qed.
  Lemma atomic_eq_form args g : atomic_eq c args = Ok g -> exists l r, g = FEq l r.
  Proof.
    unfold atomic_eq. destruct (terms args) as [[|a [|b [|]]]|]; try discriminate. intros H.
    do 5 apply bind_Ok in H as (? & _ & H). apply mk_eq_iff in H as [-> _]. eauto.
  Qed.
  Lemma f_head_form s g : f_head c s = Ok g -> exists n ts, g = FNumFun n ts.
  Proof.
    destruct s as [[]|[|[[]|] ]]; try discriminate; cbn [f_head]; intros H.
    - apply mk_numfun_Ok in H. eauto.
    - do 3 apply bind_Ok in H as (? & _ & H). apply mk_numfun_Ok in H. eauto.
  Qed.
  Lemma atomic_pred_exact n ts g : sound (FPred n ts) -> Forall legal_term ts ->
    atomic_pred c n (flat_map term_sx ts) = Ok g -> twin g (FPred n ts) -> atom_form c (FPred n ts).
  Proof.
    intros [S1 S2] L H [E K]. unfold atomic_pred in H. rewrite terms_sx in H. cbn [of_opt bind] in H.
    apply bind_Ok in H as (rs & R & H). apply bind_Ok in H as (us & U & H). apply mk_pred_Ok in H. subst g.
    unfold eqf in E. cbn in E, K. apply andb_true_iff in E as [_ E].
    constructor; auto. now apply (terms_exact ts L rs us).
  Qed.
  Lemma atomic_eq_exact l r g : sound (FEq l r) -> legal_term l -> legal_term r ->
    atomic_eq c (term_sx l ++ term_sx r) = Ok g -> twin g (FEq l r) -> atom_form c (FEq l r).
  Proof.
    intros S1 L1 L2 H [E K]. unfold atomic_eq in H.
    assert (T : terms (term_sx l ++ term_sx r) = Some [pterm_of l; pterm_of r]).
    { pose proof (terms_sx [l; r]) as T. cbn [flat_map map] in T. now rewrite app_nil_r in T. }
    rewrite T in H. apply bind_Ok in H as (ra & R1 & H). apply bind_Ok in H as (rb & R2 & H).
    apply bind_Ok in H as ([] & C & H). apply bind_Ok in H as (a & U1 & H). apply bind_Ok in H as (b & U2 & H).
    apply mk_eq_iff in H as [-> _]. unfold eqf in E. cbn in E, K. apply andb_true_iff in E as [E1 E2].
    apply app_split in K as [K1 K2].
    2:{ rewrite <- (map_length fst), (term_cnames a l E1). apply map_length. }
    constructor; auto.
    - unfold has in C. destruct (memb req_eqb EQUALITY (g_ext c)) eqn:M; [|discriminate C]. now apply memb_req_In.
    - now apply (term_exact l ra a).
    - now apply (term_exact r rb b).
  Qed.
  Lemma f_head_exact n ts g : sound (FNumFun n ts) -> Forall legal_term ts ->
    f_head c (form_sx (FNumFun n ts)) = Ok g -> twin g (FNumFun n ts) -> Forall (fits c) ts.
  Proof.
    intros S1 L H [E K]. cbn [form_sx] in H. unfold f_head, name_sx in H. rewrite terms_sx in H. cbn [of_opt bind] in H.
    apply bind_Ok in H as (rs & R & H). apply bind_Ok in H as (us & U & H). apply mk_numfun_Ok in H. subst g.
    unfold eqf in E. cbn in E, K. apply andb_true_iff in E as [_ E]. now apply (terms_exact ts L rs us).
  Qed.

  (** ** nodes *)
  Definition exact (p : sexp -> res form) (good : form -> Prop) (f : form) : Prop :=
    forall g, p (form_sx f) = Ok g -> form_size g <= form_size f /\ (twin g f -> good f).
  Lemma node_exact p good k ops gs : Forall (exact p good) ops -> mapR p (map form_sx ops) = Ok gs ->
    form_size (mk_op k gs) <= form_size (raw_node k ops)
    /\ (twin (mk_op k gs) (raw_node k ops) -> Forall good ops).
  Proof.
    intros F M. assert (G : Forall2 (fun g f => form_size g <= form_size f /\ (twin g f -> good f)) gs ops).
    { revert gs M. induction F as [|f ops X F IH]; intros gs M; cbn [map mapR] in M.
      - injection M as <-. constructor.
      - apply bind_Ok in M as (g & M1 & M). apply bind_Ok in M as (gs' & M2 & M). injection M as <-.
        constructor; auto. }
    assert (Z : forms_size gs <= forms_size ops).
    { clear -G. induction G as [|? ? ? ? [H _] G IH]; auto. rewrite !forms_size_cons. lia. }
    destruct (mk_op_size k gs) as [S1 S2]. rewrite raw_size. split; [lia|]. intros T.
    pose proof (eqf_size _ _ (proj1 T)) as E. rewrite raw_size in E. rewrite S2 in T by lia.
    apply twin_raw in T. clear -G T. revert T. induction G as [|g f gs ops [_ H] G IH]; intros T; constructor; inversion T; auto.
  Qed.
  Lemma op_size k gs n : forms_size gs <= n -> form_size (mk_op k gs) <= S n.
  Proof. intros H. destruct (mk_op_size k gs). lia. Qed.

  Lemma Forall_two {A} (P : A -> Prop) a b : Forall P [a; b] -> P a /\ P b.
  Proof. intros H. inversion H as [|? ? H1 H2]; inversion H2; subst. auto. Qed.

  (** ** function expressions *)
  Ltac inv H := inversion H; subst; clear H.
  Lemma one_or_more f : 1 <= form_size f.
  Proof. apply form_size_pos. Qed.
  Lemma f_exp_exact f : legal_parts f -> sound f -> exact (f_exp c) (expression c) f.
  Proof.
    induction f using form_ind'; intros L S' g G; inv L.
    - (* predicate *)
      cbn [form_sx f_exp name_sx] in G. apply f_head_form in G as (m & us & ->). split; auto. intros [E _]. discriminate E.
    - cbn [form_sx f_exp name_sx] in G. unfold arith_op in G. cbn in G. discriminate G.
    - split.
      + cbn [form_sx f_exp name_sx] in G. apply f_head_form in G as (m & us & ->). auto.
      + intros T. constructor; auto. now apply (f_head_exact n ts g).
    - cbn [form_sx f_exp] in G. apply bind_Ok in G as (w & W & G). injection G as <-. split; auto. intros _.
      destruct v as [z|m e|s]; [now constructor|now constructor|contradiction].
    - (* function node *)
      assert (X : Forall (exact (f_exp c) (expression c)) ops).
      { apply sound_raw in S' || apply (sound_raw (CFun k)) in S'. rewrite Forall_forall in *. auto. }
      destruct k; cbn [form_sx bfun_sx bfun_symbol f_exp name_sx] in G;
        try (unfold arith_op in G; cbn [String.eqb Ascii.eqb Bool.eqb] in G; rewrite ?map_length in G; discriminate G);
        try (apply f_head_form in G as (m & us & ->); split; [cbn; lia|intros [E _]; discriminate E]);
        unfold arith_op in G; cbn [String.eqb Ascii.eqb Bool.eqb] in G; rewrite ?map_length in G.
      + (* minus *)
        destruct (Nat.eqb_spec (length ops) 1) as [N|N]; [|discriminate G].
        apply bind_Ok in G as (gs & M & G). injection G as <-.
        destruct (node_exact _ _ (CFun BMinus) ops gs X M) as [N1 N2]. split; [exact N1|]. intros T.
        apply N2 in T. destruct ops as [|a [|]]; try discriminate N. inv T. now constructor.
      + destruct (Nat.leb_spec 2 (length ops)) as [N|N]; [|discriminate G].
        apply bind_Ok in G as (gs & M & G). injection G as <-.
        destruct (node_exact _ _ (CFun BPlus) ops gs X M) as [N1 N2]. split; [exact N1|]. intros T. constructor; auto.
      + destruct (Nat.leb_spec 2 (length ops)) as [N|N]; [|discriminate G].
        apply bind_Ok in G as (gs & M & G). injection G as <-.
        destruct (node_exact _ _ (CFun BTimes) ops gs X M) as [N1 N2]. split; [exact N1|]. intros T. constructor; auto.
      + destruct (Nat.eqb_spec (length ops) 2) as [N|N]; [|discriminate G].
        apply bind_Ok in G as (gs & M & G). injection G as <-.
        destruct (node_exact _ _ (CFun BDivide) ops gs X M) as [N1 N2]. split; [exact N1|]. intros T.
        apply N2 in T. destruct ops as [|a [|b [|]]]; try discriminate N. apply Forall_two in T as [T1 T2]. now constructor.
    - cbn [form_sx f_exp name_sx] in G. apply f_head_form in G as (m & us & ->). split; [cbn; lia|]. intros [E _]. discriminate E.
    - cbn [form_sx f_exp name_sx] in G. apply f_head_form in G as (m & us & ->). split; [cbn; lia|]. intros [E _]. discriminate E.
    - cbn [form_sx f_exp name_sx] in G. apply f_head_form in G as (m & us & ->). split; [cbn; lia|]. intros [E _]. discriminate E.
    - cbn [form_sx f_exp name_sx] in G. apply f_head_form in G as (m & us & ->). split; [cbn; lia|]. intros [E _]. discriminate E.
    - cbn [form_sx f_exp name_sx] in G. apply f_head_form in G as (m & us & ->). split; [cbn; lia|]. intros [E _]. discriminate E.
  Qed.

  (** ** conditions *)
  Lemma starts_term_ops ops : starts_term (map form_sx ops) = false.
  Proof. destruct ops as [|[] ops]; reflexivity. Qed.
  Lemma any_allowed rs e : check (any_req rs (g_ext c)) e = Ok tt -> allowed c rs.
  Proof.
    destruct (any_req rs (g_ext c)) eqn:A; [intros _|discriminate]. unfold any_req in A.
    apply existsb_exists in A as (r & I & H). exists r. split; auto. unfold has in H. now apply memb_req_In.
  Qed.
  Lemma quant_twin q q' ws vs f g : twin (mk_quant q ws g) (FQuant q' vs f) ->
    set_eqb var_eqb (dedup var_eqb ws) vs = true /\ twin g f.
  Proof.
    intros [E K]. unfold eqf in E. cbn in E, K. apply andb_true_iff in E as [E E2]. apply andb_true_iff in E as [_ E1].
    repeat split; auto.
  Qed.
  Lemma block_read vs tl ws : Forall legal_var vs -> g_vars c (flat_map plain_sx vs) = Ok tl -> mk_vars tl = Ok ws ->
    set_eqb var_eqb (dedup var_eqb ws) vs = true -> block vs.
  Proof.
    intros L T W. apply block_exact; auto. unfold back. rewrite V in T. now rewrite T.
  Qed.
  Lemma pred_other w args f g : atomic_pred c w args = Ok g ->
    (forall n ts, f <> FPred n ts) -> (forall P : Prop, form_size g <= form_size f /\ (twin g f -> P)).
  Proof.
    intros G N P. apply atomic_pred_form in G as (ts & ->). split; [apply form_size_pos|].
    intros [E _]. destruct f; try discriminate E. now destruct (N n ts0).
  Qed.
  Lemma legal_neq' n w : legal_name n -> In w reserved_words -> String.eqb n w = false.
  Proof. intros [_ L] H. apply String.eqb_neq. intros ->. contradiction. Qed.
  Lemma legal_function_neq n w : legal_function n -> In w reserved_words -> w <> "total-cost" -> String.eqb n w = false.
  Proof. intros [_ L] H N. apply String.eqb_neq. intros ->. apply N. auto. Qed.
  Lemma gd_exact f : legal_parts f -> sound f -> exact (gd c) (condition c) f.
  Proof.
    induction f using form_ind'; intros L S' g G; inv L.
    - cbn [form_sx] in G. rewrite (gd_pred_sx c (or_introl V) n _ (proj1 S')) in G. split.
      + apply atomic_pred_form in G as (us & ->). auto.
      + intros T. apply C_atom. now apply (atomic_pred_exact n ts g).
    - cbn [form_sx gd] in G. cbn [String.eqb Ascii.eqb Bool.eqb andb] in G. rewrite starts_term_sx in G. split.
      + apply atomic_eq_form in G as (a & b & ->). auto.
      + intros T. apply C_atom. now apply (atomic_eq_exact l r g).
    - cbn [form_sx gd name_sx] in G. cbn [sound] in S'.
      rewrite !(legal_function_neq n) in G by (auto; try (cbn; tauto); discriminate). cbn [orb] in G.
      eapply pred_other; eauto. intros; discriminate.
    - discriminate G.
    - (* function node *)
      apply (sound_raw (CFun k)) in S'.
      assert (X : Forall (exact (f_exp c) (expression c)) ops).
      { rewrite Forall_forall in *. intros x Hx. apply f_exp_exact; auto. }
      assert (Y : forall k', In k' [BEqual; BLess; BLessEq; BGreater; BGreaterEq] ->
        match map form_sx ops with
        | [x; y] => let* f := f_exp c x in let* g := f_exp c y in Ok (mk_binfun k' [f; g])
        | _ => syntax end = Ok g ->
        form_size g <= form_size (FBinFun k' ops) /\ (twin g (FBinFun k' ops) -> condition c (FBinFun k' ops))).
      { intros k' K Y. destruct ops as [|a [|b [|]]]; try discriminate Y. cbn [map] in Y.
        apply bind_Ok in Y as (a' & A & Y). apply bind_Ok in Y as (b' & B & Y). injection Y as <-.
        destruct (node_exact _ _ (CFun k') [a; b] [a'; b'] X) as [N1 N2].
        { cbn [map mapR]. rewrite A. cbn [bind]. now rewrite B. }
        split; [exact N1|]. intros T. apply N2 in T. apply Forall_two in T as [T1 T2]. now apply C_compare. }
      destruct k; cbn [form_sx bfun_sx bfun_symbol gd name_sx] in G; cbn [String.eqb Ascii.eqb Bool.eqb andb orb] in G;
        rewrite ?starts_term_ops in G; cbn [Parser.comparison String.eqb Ascii.eqb Bool.eqb] in G;
        try discriminate G; try (apply Y; [cbn; tauto|exact G]);
        eapply pred_other; eauto; intros; discriminate.
    - (* connective *)
      apply (sound_raw (CBin k)) in S'.
      assert (X : Forall (exact (gd c) (condition c)) ops) by (rewrite Forall_forall in *; auto).
      destruct k; cbn [form_sx bop_symbol gd name_sx] in G; cbn [String.eqb Ascii.eqb Bool.eqb andb orb] in G.
      + apply bind_Ok in G as (gs & M & G). injection G as <-.
        destruct (node_exact _ _ (CBin OAnd) ops gs X M) as [N1 N2]. split; [exact N1|]. intros T. apply C_and. auto.
      + apply bind_Ok in G as (gs & M & G). apply bind_Ok in G as ([] & A & G). apply any_allowed in A. injection G as <-.
        destruct (node_exact _ _ (CBin OOr) ops gs X M) as [N1 N2]. split; [exact N1|]. intros T. apply C_or; auto.
      + eapply pred_other; eauto. intros; discriminate.
      + destruct ops as [|a [|b [|]]]; try discriminate G. cbn [map] in G.
        apply bind_Ok in G as (a' & A & G). apply bind_Ok in G as (b' & B & G). apply bind_Ok in G as ([] & R & G).
        apply any_allowed in R. injection G as <-.
        destruct (node_exact _ _ (CBin OImply) [a; b] [a'; b'] X) as [N1 N2].
        { cbn [map mapR]. rewrite A. cbn [bind]. now rewrite B. }
        split; [exact N1|]. intros T. apply N2 in T. apply Forall_two in T as [T1 T2]. now apply C_imply.
    - (* not *)
      cbn [form_sx gd name_sx] in G; cbn [String.eqb Ascii.eqb Bool.eqb andb orb] in G.
      apply bind_Ok in G as (g' & G' & G). injection G as <-. destruct (IHf H0 S' g' G') as [N1 N2].
      split; [cbn; lia|]. intros [E K]. apply C_not. apply N2. split; auto.
    - (* quantifier *)
      destruct q; cbn [form_sx gd name_sx quant_symbol] in G; cbn [String.eqb Ascii.eqb Bool.eqb andb orb] in G;
        apply bind_Ok in G as (tl & T & G); apply bind_Ok in G as (g' & G' & G); apply bind_Ok in G as ([] & A & G);
        apply bind_Ok in G as (ws & W & G); injection G as <-; apply any_allowed in A;
        match goal with Hl : legal_parts f |- _ => destruct (IHf Hl S' g' G') as [N1 N2] end;
        (split; [cbn; lia|]); intros Tw; apply quant_twin in Tw as [B Tw]; (apply C_exists || apply C_forall); auto; eapply block_read; eauto.
    - cbn [form_sx gd name_sx] in G; cbn [String.eqb Ascii.eqb Bool.eqb andb orb] in G.
      eapply pred_other; eauto. intros; discriminate.
    - cbn [form_sx gd name_sx] in G; cbn [String.eqb Ascii.eqb Bool.eqb andb orb] in G.
      apply bind_Ok in G as (tl & T & G); apply bind_Ok in G as (g' & G' & G); apply bind_Ok in G as ([] & A & G).
      apply bind_Ok in G as (ws & W & G); injection G as <-.
      match goal with Hl : legal_parts f |- _ => destruct (IHf Hl S' g' G') as [N1 N2] end.
      split; [cbn; lia|]. intros [E _]. discriminate E.
  Qed.

  (** ** effects *)
  Lemma atom_exact f g : legal_parts f -> sound f -> atomic_formula_term c (form_sx f) = Ok g ->
    form_size g = 1 /\ (twin g f -> atom_form c f).
  Proof.
    intros L S' G.
    assert (O : (exists n ts, g = FPred n ts) \/ exists l r, g = FEq l r).
    { unfold atomic_formula_term in G. destruct (form_sx f) as [|[|[[]|] args]]; try discriminate G.
      - left. eauto using atomic_pred_form.
      - right. destruct (String.eqb s "="); [|discriminate G]. eauto using atomic_eq_form. }
    split; [destruct O as [(n & ts & ->)|(l & r & ->)]; reflexivity|]. intros T.
    destruct f; try (exfalso; destruct O as [(? & ? & ->)|(? & ? & ->)], T as [E _]; discriminate E); inv L.
    - now apply (atomic_pred_exact n ts g).
    - now apply (atomic_eq_exact l r g).
  Qed.
  Lemma atomic_other f g : atomic_formula_term c (form_sx f) = Ok g ->
    (forall n ts, f <> FPred n ts) -> (forall l r, f <> FEq l r) ->
    forall P : Prop, form_size g <= form_size f /\ (twin g f -> P).
  Proof.
    intros G N1 N2 P.
    assert (O : (exists n ts, g = FPred n ts) \/ exists l r, g = FEq l r).
    { unfold atomic_formula_term in G. destruct (form_sx f) as [|[|[[]|] args]]; try discriminate G.
      - left. eauto using atomic_pred_form.
      - right. destruct (String.eqb s "="); [|discriminate G]. eauto using atomic_eq_form. }
    split; [destruct O as [(n & ts & ->)|(l & r & ->)]; apply form_size_pos|]. intros [E _].
    destruct O as [(n & ts & ->)|(l & r & ->)]; destruct f; try discriminate E; [now destruct (N1 n0 ts0)|now destruct (N2 l0 r0)].
  Qed.
  Lemma p_effect_exact f : legal_parts f -> sound f -> exact (p_effect c) (primitive c) f.
  Proof.
    intros L S' g G.
    assert (A : atomic_formula_term c (form_sx f) = Ok g -> form_size g <= form_size f /\ (twin g f -> primitive c f)).
    { intros A. destruct (atom_exact f g L S' A) as [A1 A2]. split; [rewrite A1; apply form_size_pos|].
      intros T. apply P_atom. auto. }
    destruct f as [n ts|l r|n ts|v|k ops|k ops|f|q vs f|f1 f2|vs f].
    - apply A. rewrite <- G. cbn [sound] in S'. destruct S' as [S1 S2].
      cbn [form_sx]. unfold name_sx, p_effect.
      rewrite (legal_neq' n "not" S1) by (cbn; tauto). unfold assign_op.
      rewrite !(legal_neq' n) by (auto; cbn; tauto). reflexivity.
    - apply A. exact G.
    - cbn [form_sx] in *. unfold name_sx, p_effect in G. cbn [sound] in S'.
      rewrite (legal_function_neq n "not") in G by (auto; try (cbn; tauto); discriminate).
      unfold assign_op in G. rewrite !(legal_function_neq n) in G by (auto; try (cbn; tauto); discriminate). exact (A G).
    - discriminate G.
    - apply (sound_raw (CFun k)) in S'. inv L.
      assert (X : Forall (exact (f_exp c) (expression c)) ops).
      { rewrite Forall_forall in *. intros x Hx. apply f_exp_exact; auto. }
      assert (Y : forall k', In k' [BAssign; BScaleUp; BScaleDown; BIncrease; BDecrease] ->
        match map form_sx ops with
        | [h; e] => let* f := f_head c h in let* g := f_exp c e in Ok (mk_binfun k' [f; g])
        | _ => syntax end = Ok g ->
        form_size g <= form_size (FBinFun k' ops) /\ (twin g (FBinFun k' ops) -> primitive c (FBinFun k' ops))).
      { intros k' K Y. destruct ops as [|a [|b [|]]]; try discriminate Y. cbn [map] in Y.
        apply bind_Ok in Y as (a' & A' & Y). apply bind_Ok in Y as (b' & B & Y). injection Y as <-.
        apply Forall_two in X as [Xa Xb]. destruct (Xb b' B) as [N1 N2].
        destruct (f_head_form _ _ A') as (m & us & ->).
        assert (M : mk_binfun k' [FNumFun m us; b'] = FBinFun k' [FNumFun m us; b']).
        { repeat destruct K as [<-|K]; [..|contradiction]; reflexivity. }
        rewrite M. split; [pose proof (form_size_pos a); cbn; lia|]. intros T.
        apply (twin_raw (CFun k')) in T. inversion T as [|? ? ? ? T1 T']; inversion T' as [|? ? ? ? T2 _]; subst.
        apply Forall_two in S' as [S1 S2]. apply Forall_two in H0 as [L1 L2].
        destruct a as [| |n ts| | | | | | | ]; try (destruct T1 as [E _]; discriminate E).
        inv L1. apply P_assign; auto. now apply (f_head_exact n ts (FNumFun m us)). }
      destruct k; cbn [form_sx bfun_sx bfun_symbol p_effect name_sx] in G; try discriminate G; try (apply Y; [cbn; tauto|exact G]).
      all: exact (A G).
    - destruct k; apply A; exact G.
    - cbn [form_sx name_sx p_effect String.eqb Ascii.eqb Bool.eqb] in G.
      apply bind_Ok in G as (g' & G' & G). injection G as <-. inv L. destruct (atom_exact f g' H0 S' G') as [A1 A2].
      split; [pose proof (form_size_pos f); cbn; lia|]. intros [E K]. apply P_not, A2. split; auto.
    - destruct q; apply A; exact G.
    - apply A; exact G.
    - apply A; exact G.
  Qed.
  Lemma cond_effect_exact f : legal_parts f -> sound f -> exact (cond_effect c) (consequence c) f.
  Proof.
    intros L S' g G.
    assert (A : p_effect c (form_sx f) = Ok g -> form_size g <= form_size f /\ (twin g f -> consequence c f)).
    { intros A. destruct (p_effect_exact f L S' g A) as [A1 A2]. split; auto. intros T. apply Q_prim. auto. }
    destruct f as [n ts|l r|n ts|v|k ops|k ops|f|q vs f|f1 f2|vs f]; try (apply A; exact G).
    - apply A. rewrite <- G. destruct S' as [S1 S2]. cbn [form_sx]. unfold name_sx, cond_effect.
      rewrite (legal_neq' n "and" S1) by (auto; cbn; tauto). reflexivity.
    - apply A. rewrite <- G. cbn [form_sx]. unfold name_sx, cond_effect. cbn [sound] in S'.
      rewrite (legal_function_neq n "and") by (auto; try (cbn; tauto); discriminate). reflexivity.
    - destruct k; apply A; exact G.
    - destruct k; try (apply A; exact G). apply (sound_raw (CBin OAnd)) in S'. inv L.
      cbn [form_sx bop_symbol name_sx cond_effect String.eqb Ascii.eqb Bool.eqb] in G.
      apply bind_Ok in G as (gs & M & G). injection G as <-.
      destruct (node_exact (p_effect c) (primitive c) (CBin OAnd) ops gs) as [N1 N2]; auto.
      { rewrite Forall_forall in *. intros x Hx. apply p_effect_exact; auto. }
      split; [exact N1|]. intros T. apply Q_and. auto.
    - destruct q; apply A; exact G.
  Qed.
  Lemma effect_exact f : legal_parts f -> sound f -> forall b, exact (effect c b) (effect_form c b) f.
  Proof.
    induction f using form_ind'; intros L S' b g G;
      match goal with |- _ /\ (twin _ ?f -> _) =>
        assert (A : p_effect c (form_sx f) = Ok g -> form_size g <= form_size f /\ (twin g f -> effect_form c b f));
        [intros A; destruct (p_effect_exact f L S' g A) as [A1 A2]; split; auto; intros T; apply F_prim; auto|]
      end; try (apply A; exact G).
    - apply A. rewrite <- G. destruct S' as [S1 S2]. cbn [form_sx]. unfold name_sx, effect.
      rewrite !(legal_neq' n) by (auto; cbn; tauto). now rewrite andb_false_r.
    - apply A. rewrite <- G. cbn [form_sx]. unfold name_sx, effect. cbn [sound] in S'.
      rewrite !(legal_function_neq n) by (auto; try (cbn; tauto); discriminate). now rewrite andb_false_r.
    - destruct k; apply A; rewrite <- G; cbn [form_sx bfun_sx bfun_symbol name_sx effect String.eqb Ascii.eqb Bool.eqb];
        rewrite ?andb_false_r; reflexivity.
    - apply (sound_raw (CBin k)) in S'. inv L. destruct k.
      + destruct b; [|apply A; exact G].
        cbn [form_sx bop_symbol name_sx effect String.eqb Ascii.eqb Bool.eqb andb] in G.
        apply bind_Ok in G as (gs & M & G). injection G as <-.
        destruct (node_exact (effect c false) (effect_form c false) (CBin OAnd) ops gs) as [N1 N2]; auto.
        { rewrite Forall_forall in *. auto. }
        split; [exact N1|]. intros T. apply F_and. auto.
      + apply A. rewrite <- G. cbn [form_sx bop_symbol name_sx effect String.eqb Ascii.eqb Bool.eqb]. now rewrite andb_false_r.
      + cbn [form_sx bop_symbol name_sx effect String.eqb Ascii.eqb Bool.eqb] in G. rewrite andb_false_r in G.
        destruct ops as [|o ops]; [discriminate G|]. cbn [map] in G.
        apply bind_Ok in G as (gs & M & G). apply bind_Ok in G as ([] & R & G). injection G as <-.
        destruct (node_exact (effect c true) (effect_form c true) (CBin OOneOf) (o :: ops) gs) as [N1 N2]; auto.
        { rewrite Forall_forall in *. auto. }
        split; [exact N1|]. intros T. apply F_oneof; auto; [|discriminate].
        unfold has in R. destruct (memb req_eqb NON_DETERMINISTIC (g_ext c)) eqn:E; [|discriminate R]. now apply memb_req_In.
      + apply A. rewrite <- G. cbn [form_sx bop_symbol name_sx effect String.eqb Ascii.eqb Bool.eqb]. now rewrite andb_false_r.
    - apply A. rewrite <- G. cbn [form_sx name_sx effect String.eqb Ascii.eqb Bool.eqb]. now rewrite andb_false_r.
    - (* quantified condition *)
      inv L. destruct q.
      + cbn [form_sx quant_symbol name_sx effect String.eqb Ascii.eqb Bool.eqb] in G. rewrite andb_false_r in G.
        apply bind_Ok in G as (tl & T & G). apply bind_Ok in G as (g' & G' & G). apply bind_Ok in G as (ws & W & G).
        injection G as <-. destruct (IHf H3 S' true g' G') as [N1 N2]. split; [cbn; lia|]. intros [E _]. discriminate E.
      + apply A. rewrite <- G. cbn [form_sx quant_symbol name_sx effect String.eqb Ascii.eqb Bool.eqb]. now rewrite andb_false_r.
    - (* when *)
      inv L. destruct S' as [S1 S2]. cbn [form_sx name_sx effect String.eqb Ascii.eqb Bool.eqb] in G. rewrite andb_false_r in G.
      apply bind_Ok in G as (g1 & G1 & G). apply bind_Ok in G as (g2 & G2 & G). injection G as <-.
      destruct (gd_exact f1 H1 S1 g1 G1) as [N1 N2]. destruct (cond_effect_exact f2 H2 S2 g2 G2) as [M1 M2].
      split; [cbn; lia|]. intros [E K]. unfold eqf in E. cbn in E, K. apply andb_true_iff in E as [E1 E2].
      apply app_split in K as [K1 K2]; [|now apply cnames_length]. apply F_when; [apply N2|apply M2]; split; auto.
    - (* forall *)
      inv L. cbn [form_sx name_sx effect String.eqb Ascii.eqb Bool.eqb] in G. rewrite andb_false_r in G.
      apply bind_Ok in G as (tl & T & G). apply bind_Ok in G as (g' & G' & G). apply bind_Ok in G as (ws & W & G).
      injection G as <-. destruct (IHf H2 S' true g' G') as [N1 N2]. split; [cbn; lia|].
      intros [E K]. unfold eqf in E. cbn in E, K. apply andb_true_iff in E as [E1 E2].
      apply F_forall; [eapply block_read; eauto|apply N2; split; auto].
  Qed.

  (** ** the text *)
  Lemma condition_exact f : built f -> legal_parts f ->
    ((exists g, condition_in c (show_form f) = Ok g /\ form_eqb g f = true /\ constants_of g = constants_of f)
     <-> condition c f).
  Proof.
    intros B L. pose proof (built_sound f B) as S'. unfold condition_in.
    rewrite (rx_read _ _ (rx_form f (legal_readable f L S'))). split.
    - intros (g & G & E & K). assert (G' : gd c (form_sx f) = Ok g) by (destruct f; exact G).
      apply (gd_exact f L S' g G'). split; auto.
    - intros C. destruct (emptyor_pregd_sim c (or_introl V) f C (built_nff f B)) as (g & G & Q).
      exists g. split; auto. now apply sim_twin in Q.
  Qed.
  Lemma effect_text_exact f : built f -> legal_parts f ->
    ((exists g, effect_in c (show_form f) = Ok g /\ form_eqb g f = true /\ constants_of g = constants_of f)
     <-> effect_form c true f).
  Proof.
    intros B L. pose proof (built_sound f B) as S'. unfold effect_in.
    rewrite (rx_read _ _ (rx_form f (legal_readable f L S'))). split.
    - intros (g & G & E & K). assert (G' : effect c true (form_sx f) = Ok g) by (destruct f; exact G).
      apply (effect_exact f L S' true g G'). split; auto.
    - intros C. destruct (emptyor_effect_sim c (or_introl V) f V C (built_nff f B)) as (g & G & Q).
      exists g. split; auto. now apply sim_twin in Q.
  Qed.
End Context.
