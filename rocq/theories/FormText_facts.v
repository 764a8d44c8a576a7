(** Printed conditions and effects: the trees they stand for and what these parse to. *)
From Coq Require Import String List Bool Arith ZArith Lia.
From Verif Require Import Py Names Reqs Logic Built Validation Core Lexer Show Parser.
From Verif Require Import Spec_Parse Spec_Print Spec_Numbers Spec_Text.
From Verif Require Spec_Same.
From Verif Require Import Py_facts ShowSame_facts Names_facts Logic_facts NF_facts Lex_facts Parse_facts Text_facts
  Print_facts Number_facts NumShow_facts Vars_facts Order_facts Feature_facts.
Import ListNotations.
Open Scope string_scope.
Open Scope list_scope.

(** ** the tree of a formula *)
Definition term_sx (t : term) : list sexp :=
  match t with TConst n _ => [name_sx n] | TVar v => var_sx (v_name v) end.
Definition bfun_sx (k : bfun) : sexp :=
  match k with
  | BAssign | BScaleUp | BScaleDown | BIncrease | BDecrease => name_sx (bfun_symbol k)
  | _ => SAtom (TOp (bfun_symbol k))
  end.
Fixpoint form_sx (f : form) : sexp :=
  match f with
  | FPred n ts => SList (name_sx n :: flat_map term_sx ts)
  | FEq l r => SList (SAtom (TOp "=") :: term_sx l ++ term_sx r)
  | FNumFun n ts => SList (name_sx n :: flat_map term_sx ts)
  | FNumVal v => SAtom (TNum (show_num v))
  | FBinFun k ops => SList (bfun_sx k :: map form_sx ops)
  | FBin k ops => SList (name_sx (bop_symbol k) :: map form_sx ops)
  | FNot g => SList [name_sx "not"; form_sx g]
  | FQuant q vs g => SList [name_sx (quant_symbol q); SList (flat_map plain_sx vs); form_sx g]
  | FWhen g e => SList [name_sx "when"; form_sx g; form_sx e]
  | FForall vs e => SList [name_sx "forall"; SList (flat_map plain_sx vs); form_sx e]
  end.

(** ** what it takes for the text to be that tree *)
Definition term_legal (t : term) : Prop := legal_name (t_name t).
Fixpoint readable (f : form) : Prop :=
  match f with
  | FPred n ts => identifier n /\ Forall term_legal ts
  | FEq l r => term_legal l /\ term_legal r
  | FNumFun n ts => identifier n /\ Forall term_legal ts
  | FNumVal v => dotted (show_num v)
  | FBinFun _ ops | FBin _ ops => fold_right (fun g p => readable g /\ p) True ops
  | FNot g => readable g
  | FQuant _ vs g => Forall legal_var vs /\ readable g
  | FWhen g e => readable g /\ readable e
  | FForall vs e => Forall legal_var vs /\ readable e
  end.

Lemma rx_term t : term_legal t -> rx (show_term t) (term_sx t).
Proof. destruct t; intros H; [now apply rx_name|now apply rx_var]. Qed.
Lemma rx_terms ts : Forall term_legal ts -> rx (join " " (map show_term ts)) (flat_map term_sx ts).
Proof. intros F. apply rx_join. eapply Forall_impl; [|exact F]. intros t. apply rx_term. Qed.
Lemma digit_not_semi c z : digit c = Some z -> chr 59 c = false.
Proof. destruct c as [[] [] [] [] [] [] [] []]; vm_compute; auto; discriminate. Qed.
Lemma horner_no_comment s : forall acc z, horner acc s = Some z -> no_comment s.
Proof.
  induction s as [|c s IH]; intros acc z H; cbn in *; auto.
  destruct (digit c) eqn:D; [|discriminate]. split; [now apply (digit_not_semi c z0)|eauto].
Qed.
Lemma dotted_no_comment s : dotted s -> no_comment s.
Proof.
  induction 1; [eapply horner_no_comment; eauto|]. apply no_comment_app. split; auto.
  apply no_comment_app. split; [cbn; auto|eapply horner_no_comment; eauto].
Qed.
Lemma rx_num v : dotted (show_num v) -> rx (show_num v) [SAtom (TNum (show_num v))].
Proof.
  intros N. split; [|split].
  - now apply dotted_no_comment.
  - rewrite (lex_dotted _ N). reflexivity.
  - repeat constructor; discriminate.
Qed.

Lemma rx_node kw k body l : rx kw [k] -> rx body l ->
  rx ("(" +++ kw +++ " " +++ body +++ ")") [SList (k :: l)].
Proof.
  intros K B. apply (rx_group _ (kw +++ " " +++ body)); [|now rewrite !append_assoc].
  change (k :: l) with ([k] ++ l). apply rx_app; auto; [|cbn; auto]. now apply rx_space.
Qed.
Lemma rx_atom n ts : identifier n -> Forall term_legal ts ->
  rx (show_atom n ts) [SList (name_sx n :: flat_map term_sx ts)].
Proof.
  intros N F. unfold show_atom. destruct ts as [|t ts].
  - apply (rx_group _ n); [now apply rx_word|reflexivity].
  - apply rx_node; [now apply rx_word|now apply rx_terms].
Qed.
Lemma rx_bfun k : rx (bfun_symbol k) [bfun_sx k].
Proof. destruct k; rx_lit. Qed.
Lemma rx_bop k : rx (bop_symbol k) [name_sx (bop_symbol k)].
Proof. destruct k; rx_lit. Qed.
Lemma rx_quant q : rx (quant_symbol q) [name_sx (quant_symbol q)].
Proof. destruct q; rx_lit. Qed.
Lemma rx_two a b l m : rx a l -> rx b m -> rx (a +++ " " +++ b) (l ++ m).
Proof. intros A B. apply rx_app; auto; [now apply rx_space|cbn; auto]. Qed.
Lemma rx_paren a l : rx a l -> rx ("(" +++ a +++ ")") [SList l].
Proof. intros A. now apply (rx_group _ a). Qed.
Lemma fold_and_Forall' {A} (P : A -> Prop) l : fold_right (fun g p => P g /\ p) True l <-> Forall P l.
Proof.
  induction l; cbn; split; auto; intros H.
  - constructor; tauto.
  - inversion H; subst. tauto.
Qed.
Lemma rx_ops ops : Forall (fun f => readable f -> rx (show_form f) [form_sx f]) ops ->
  Forall readable ops -> rx (join " " (map show_form ops)) (map form_sx ops).
Proof.
  intros F R. rewrite <- (flat_map_single form_sx ops). apply rx_join.
  rewrite Forall_forall in *. auto.
Qed.
Lemma rx_node' s kw k body l : rx kw [k] -> rx body l ->
  s = "(" +++ kw +++ " " +++ body +++ ")" -> rx s [SList (k :: l)].
Proof. intros K B ->. now apply rx_node. Qed.
Ltac str := cbn [String.append]; rewrite ?append_assoc; cbn [String.append]; rewrite ?append_assoc; reflexivity.
Lemma rx_form f : readable f -> rx (show_form f) [form_sx f].
Proof.
  induction f using form_ind'; cbn [readable show_form form_sx]; intros R.
  - apply rx_atom; tauto.
  - destruct R as [R1 R2]. apply (rx_node' _ "=" _ (show_term l +++ " " +++ show_term r)).
    + rx_lit.
    + apply rx_two; now apply rx_term.
    + str.
  - apply rx_atom; tauto.
  - now apply rx_num.
  - apply rx_node; [apply rx_bfun|]. apply rx_ops; auto. now apply fold_and_Forall'.
  - apply rx_node; [apply rx_bop|]. apply rx_ops; auto. now apply fold_and_Forall'.
  - apply (rx_node' _ "not" _ (show_form f)); [rx_lit|auto|str].
  - destruct R as [R1 R2].
    apply (rx_node' _ (quant_symbol q) _ (("(" +++ join " " (map show_qvar vs) +++ ")") +++ " " +++ show_form f)).
    + apply rx_quant.
    + apply (rx_two _ _ [_] [_]); auto. now apply rx_paren, rx_qvars.
    + str.
  - destruct R as [R1 R2]. apply (rx_node' _ "when" _ (show_form f1 +++ " " +++ show_form f2)).
    + rx_lit.
    + apply (rx_two _ _ [_] [_]); auto.
    + str.
  - destruct R as [R1 R2].
    apply (rx_node' _ "forall" _ (("(" +++ typed_parameters (map TVar vs) +++ ")") +++ " " +++ show_form f)).
    + rx_lit.
    + apply (rx_two _ _ [_] [_]); auto. now apply rx_paren, rx_params.
    + str.
Qed.

(** ** formulas equal operand by operand *)
Definition eqf (f g : form) : Prop := form_eqb f g = true.
Lemma eqf_sym f g : eqf f g -> eqf g f.
Proof. unfold eqf. intros H. now rewrite form_eqb_sym. Qed.
Lemma list_eqb_Forall2 {A} (eqb : A -> A -> bool) l m :
  list_eqb eqb l m = true <-> Forall2 (fun x y => eqb x y = true) l m.
Proof.
  split.
  - revert m. induction l as [|x l IH]; intros [|y m] H; try discriminate; [constructor|].
    cbn in H. apply andb_true_iff in H as [H1 H2]. constructor; auto.
  - induction 1; cbn; auto. now rewrite H, IHForall2.
Qed.
Lemma ops_if_eqf c f g : eqf f g -> ops_if c f = None -> ops_if c g = None.
Proof.
  unfold eqf. intros E H. destruct f, g; try discriminate; destruct c; auto; cbn in *.
  - apply andb_true_iff in E as [E _]. destruct k, k0; try discriminate; auto; destruct k1; auto; discriminate.
  - apply andb_true_iff in E as [E _]. destruct k, k0; try discriminate; auto; destruct k1; auto; discriminate.
Qed.
Lemma memb_eqf f g l m : eqf f g -> Forall2 eqf l m -> memb form_eqb f l = memb form_eqb g m.
Proof.
  intros E F. induction F as [|x y l m H F IH]; auto. unfold memb in *. cbn [existsb]. rewrite IH. f_equal.
  pose proof form_eqb_equiv as Q.
  destruct (form_eqb f x) eqn:E1, (form_eqb g y) eqn:E2; auto.
  - rewrite <- E2. symmetry. apply (eqv_trans _ Q _ f); [now apply eqf_sym|]. now apply (eqv_trans _ Q _ x).
  - rewrite <- E1. apply (eqv_trans _ Q _ g); auto. apply (eqv_trans _ Q _ y); auto. now apply eqf_sym.
Qed.
Lemma NoDupE_eqf l m : Forall2 eqf l m -> NoDupE form_eqb l -> NoDupE form_eqb m.
Proof.
  induction 1 as [|x y l m H F IH]; intros N; [constructor|]. inversion N; subst. constructor; auto.
  now rewrite <- (memb_eqf x y l m).
Qed.
Lemma nfn_eqf c l m : Forall2 eqf l m -> nfn c l -> nfn c m.
Proof.
  intros F. assert (L : length l = length m) by (induction F; cbn; congruence). unfold nfn. destruct (metaclass c) as [[]|]; auto.
  - intros (H1 & H2 & H3). split; [|split; [now apply (NoDupE_eqf l)|congruence]].
    clear -F H1. induction F; [constructor|]. inversion H1; subst. constructor; auto. now apply (ops_if_eqf c x).
  - intros [H|(H1 & H2)]; [left; congruence|]. right. split; [|now apply (NoDupE_eqf l)].
    clear -F H1. induction F; [constructor|]. inversion H1; subst. constructor; auto. now apply (ops_if_eqf c x).
Qed.
Lemma eqf_node c l m : Forall2 eqf l m -> nfn c m -> eqf (mk_op c l) (raw_node c m).
Proof.
  intros F N. rewrite mk_op_id.
  - unfold eqf. destruct c as [k|k]; cbn; apply andb_true_iff; split; try (destruct k; reflexivity);
      now apply list_eqb_Forall2.
  - apply (nfn_eqf c m); auto. clear N. induction F; constructor; auto. now apply eqf_sym.
Qed.

(** ** variables *)
Lemma same_var_eqb v w : same_var v w <-> var_eqb v w = true.
Proof.
  unfold same_var, var_eqb, same_set. rewrite andb_true_iff, String.eqb_eq, set_eqb_string. tauto.
Qed.
Lemma set_eqb_Forall2 {A} (eqb : A -> A -> bool) l m : is_equiv eqb ->
  Forall2 (fun x y => eqb x y = true) l m -> set_eqb eqb l m = true.
Proof.
  intros Q F. unfold set_eqb, subset. apply andb_true_iff. split.
  - apply forallb_forall. intros x Hx. clear -F Hx. unfold memb. apply existsb_exists.
    induction F as [|a b l m H F IH]; [contradiction|]. destruct Hx as [<-|Hx]; [exists b; split; [now left|auto]|].
    destruct (IH Hx) as (y & ? & ?). exists y. split; auto. now right.
  - apply forallb_forall. intros x Hx. unfold memb. apply existsb_exists.
    induction F as [|a b l m H F IH]; [contradiction|]. destruct Hx as [<-|Hx].
    + exists a. split; [now left|]. now rewrite (eqv_sym _ Q).
    + destruct (IH Hx) as (y & ? & ?). exists y. split; auto. now right.
Qed.
Lemma dedup_vars_eqb vs ws : Forall2 same_var ws vs -> set_eqb var_eqb (dedup var_eqb ws) vs = true.
Proof.
  intros F. pose proof var_eqb_equiv as Q. pose proof (set_eqb_equiv _ Q) as SQ.
  apply (eqv_trans _ SQ _ ws).
  - apply dedup_set_eqb. exact Q.
  - apply set_eqb_Forall2; auto. clear -F. induction F; constructor; auto. now apply same_var_eqb.
Qed.
Lemma one_type_var w v : same_var w v -> one_type v -> NoDup (v_tags w) -> w = v.
Proof.
  destruct w as [n gs], v as [m hs]. unfold one_type. intros [E T] O N. cbn in *. subst m. f_equal.
  destruct hs as [|h [|]]; [| |cbn in O; lia].
  - destruct gs as [|g gs]; auto. exfalso. apply (T g). now left.
  - destruct gs as [|g [|g' gs]]; [exfalso; apply (T h); now left|destruct (proj1 (T g)) as [->|[]]; [now left|auto]|].
    exfalso. destruct (proj1 (T g)) as [<-|[]]; [now left|]. destruct (proj1 (T g')) as [<-|[]]; [right; now left|].
    inversion N as [|? ? X _]. apply X. now left.
Qed.
Lemma mk_vars_NoDup tl ws : mk_vars tl = Ok ws -> Forall (fun w => NoDup (v_tags w)) ws.
Proof.
  unfold mk_vars. intros H. apply mapR_Ok in H. induction H as [|p w tl ws E H IH]; constructor; auto.
  apply mk_var_Ok in E as (-> & _). cbn. apply dedup_string_NoDup.
Qed.
(** the same set of variables; and the same list, when there are no repetitions *)
Definition same_block (ws vs : list var) : Prop :=
  set_eqb var_eqb ws vs = true /\ (NoDupE var_eqb vs -> ws = vs).
Lemma dedup_block vs ws tl : mk_vars tl = Ok ws -> Forall2 same_var ws vs -> Forall one_type vs ->
  same_block (dedup var_eqb ws) vs.
Proof.
  intros M F O. split; [now apply dedup_vars_eqb|]. intros N. apply mk_vars_NoDup in M.
  assert (ws = vs) as ->; [|apply dedup_id; auto using var_eqb_equiv].
  clear N. induction F as [|w v ws vs E F IH]; auto. inversion M; inversion O; subst. f_equal; [now apply one_type_var|auto].
Qed.
Lemma allowed_any c rs : allowed c rs -> any_req rs (g_ext c) = true.
Proof.
  intros (r & I & H). unfold any_req. apply existsb_exists. exists r. split; auto.
  unfold has. now apply memb_req_In.
Qed.

(** ** formulas alike in every term, types included *)
Definition same_term (t u : term) : Prop := term_eqb t u = true /\ t_name t = t_name u /\ same_set (t_tags t) (t_tags u).
Lemma same_terms_eqb us ts : Forall2 same_term us ts -> list_eqb term_eqb us ts = true.
Proof. intros F. apply list_eqb_Forall2. induction F as [|? ? ? ? H]; constructor; auto. apply H. Qed.
Inductive sim : form -> form -> Prop :=
| S_pred n us ts : Forall2 same_term us ts -> sim (FPred n us) (FPred n ts)
| S_eq a b l r : same_term a l -> same_term b r -> sim (FEq a b) (FEq l r)
| S_fun n us ts : Forall2 same_term us ts -> sim (FNumFun n us) (FNumFun n ts)
| S_num v w : num_eqb v w = true -> Spec_Same.is_float v = Spec_Same.is_float w -> sim (FNumVal v) (FNumVal w)
| S_binfun k l m : Forall2 sim l m -> sim (FBinFun k l) (FBinFun k m)
| S_bin k l m : Forall2 sim l m -> sim (FBin k l) (FBin k m)
| S_not f g : sim f g -> sim (FNot f) (FNot g)
| S_quant q ws vs f g : same_block ws vs -> sim f g -> sim (FQuant q ws f) (FQuant q vs g)
| S_when f g d e : sim f g -> sim d e -> sim (FWhen f d) (FWhen g e)
| S_forall ws vs f g : same_block ws vs -> sim f g -> sim (FForall ws f) (FForall vs g).
Lemma sim_eqf g : forall f, sim f g -> eqf f g.
Proof.
  assert (X : forall ops l, Forall (fun g => forall f, sim f g -> eqf f g) ops -> Forall2 sim l ops ->
              list_eqb form_eqb l ops = true).
  { intros ops l H F. apply list_eqb_Forall2. revert H. induction F as [|x y l m S' F IH]; intros H; constructor; inversion H; subst; auto.
    now apply H2. }
  unfold eqf in *. induction g using form_ind'; intros f0 E; inversion E; subst; cbn [form_eqb]; auto.
  - now rewrite String.eqb_refl, same_terms_eqb.
  - match goal with H : same_term ?a l, H' : same_term ?b r |- _ => now rewrite (proj1 H), (proj1 H') end.
  - now rewrite String.eqb_refl, same_terms_eqb.
  - rewrite X by auto. destruct k; reflexivity.
  - rewrite X by auto. destruct k; reflexivity.
  - match goal with H : same_block _ _ |- _ => rewrite (proj1 H) end. rewrite IHg by auto. destruct q; reflexivity.
  - now rewrite IHg1, IHg2.
  - match goal with H : same_block _ _ |- _ => rewrite (proj1 H) end. now rewrite IHg.
Qed.
Lemma sims_eqf l m : Forall2 sim l m -> Forall2 eqf l m.
Proof. induction 1; constructor; auto. now apply sim_eqf. Qed.
Lemma sim_node c l m : Forall2 sim l m -> nfn c m -> sim (mk_op c l) (raw_node c m).
Proof.
  intros F N. rewrite mk_op_id.
  - destruct c; constructor; auto.
  - apply (nfn_eqf c m); auto. apply sims_eqf in F. clear N. induction F; constructor; auto. now apply eqf_sym.
Qed.

(** alike formulas have the same text *)
Lemma sim_show g : forall f, sim f g -> nff g -> show_form f = show_form g.
Proof.
  assert (T : forall n us ts, Forall2 same_term us ts -> show_atom n us = show_atom n ts).
  { intros n us ts F. apply show_atom_same. now rewrite String.eqb_refl, same_terms_eqb. }
  assert (X : forall l m, Forall (fun g => forall f, sim f g -> nff g -> show_form f = show_form g) m ->
    Forall2 sim l m -> Forall nff m -> map show_form l = map show_form m).
  { intros l m H F. induction F as [|x y l m E F IH]; intros N; auto. inversion H; inversion N; subst.
    cbn. f_equal; auto. }
  induction g using form_ind'; intros f0 E N; inversion E; subst; cbn [show_form]; auto.
  - match goal with H : same_term ?a l, H' : same_term ?b r |- _ =>
      now rewrite (show_term_same _ _ (proj1 H)), (show_term_same _ _ (proj1 H')) end.
  - now apply show_num_same.
  - apply (nff_raw (CFun k)) in N as [N1 N2]. erewrite X; eauto.
  - apply (nff_raw (CBin k)) in N as [N1 N2]. erewrite X; eauto.
  - now rewrite IHg.
  - destruct N as [N1 N2]. match goal with H : same_block _ _ |- _ => rewrite (proj2 H N1) end. now rewrite IHg.
  - destruct N as [N1 N2]. match goal with H : sim ?a g1, H' : sim ?b g2 |- _ => now rewrite (IHg1 a H N1), (IHg2 b H' N2) end.
  - destruct N as [N1 N2]. match goal with H : same_block _ _ |- _ => rewrite (proj2 H N1) end. now rewrite IHg.
Qed.

Section Context.
  Variable c : gctx.
  Hypothesis V : g_vars c = typed_list_variable \/ g_ext c = [].

  Lemma fits_legal t : fits c t -> term_legal t.
  Proof. destruct t; cbn; intros [H _]; exact H. Qed.
  Lemma fits_legals ts : Forall (fits c) ts -> Forall term_legal ts.
  Proof. intros F. eapply Forall_impl; [|exact F]. apply fits_legal. Qed.

  (** terms *)
  Definition pterm_of (t : term) : pterm := match t with TConst n _ => PConst n | TVar v => PVar (v_name v) end.
  Lemma terms_sx ts : terms (flat_map term_sx ts) = Some (map pterm_of ts).
  Proof. induction ts as [|[n g|v] ts IH]; cbn; auto; now rewrite IH. Qed.
  Lemma resolve_fits t : fits c t -> exists r u, resolve c (pterm_of t) = Ok r
    /\ constant_or_variable c r = Ok u /\ same_term u t.
  Proof.
    destruct t as [n g|v]; cbn.
    - intros [L E]. rewrite E. cbn. exists (inl (TConst n g)), (TConst n g). repeat split; auto.
      cbn. apply String.eqb_refl.
    - intros [L H]. exists (inr (v_name v)). cbn. destruct (dict_get String.eqb (v_name v) (g_params c)) as [w|].
      + exists (TVar w). split; auto. split; auto. split; [now apply same_var_eqb|exact H].
      + exists (TVar (mkVar (v_name v) [])). split; auto. split.
        * rewrite (proj2 (mk_var_Ok (v_name v) (CList []) (mkVar (v_name v) []))); auto.
          split; auto. split; auto. split; [constructor|constructor].
        * split; [apply same_var_eqb|]; split; cbn; auto; rewrite H; intros x; tauto.
  Qed.
  Lemma resolves_fits ts : Forall (fits c) ts -> exists rs us, mapR (resolve c) (map pterm_of ts) = Ok rs
    /\ mapR (constant_or_variable c) rs = Ok us /\ Forall2 same_term us ts.
  Proof.
    induction 1 as [|t ts H F (rs & us & R & U & S')].
    - exists [], []. repeat constructor.
    - destruct (resolve_fits t H) as (r & u & E1 & E2 & E3). exists (r :: rs), (u :: us).
      cbn. rewrite E1, R. cbn. rewrite E2, U. repeat split; auto.
  Qed.
  Lemma same_terms_consistent us ts : Forall2 same_term us ts -> name_consistent ts -> name_consistent us.
  Proof.
    intros F N t u Ht Hu E g.
    assert (X : forall v, In v us -> exists v', In v' ts /\ same_term v v').
    { clear -F. induction F as [|a b l m S' F IH]; [contradiction|]. intros x [<-|H].
      - exists b. split; auto. now left.
      - destruct (IH x H) as (y & ? & ?). exists y. split; auto. now right. }
    destruct (X t Ht) as (t' & T & _ & T1 & T2), (X u Hu) as (u' & U & _ & U1 & U2).
    rewrite (T2 g), (U2 g). apply N; auto. congruence.
  Qed.
  Lemma atomic_pred_sx n ts : legal_name n -> Forall (fits c) ts -> name_consistent ts ->
    exists g, atomic_pred c n (flat_map term_sx ts) = Ok g /\ sim g (FPred n ts).
  Proof.
    intros L F N. destruct (resolves_fits ts F) as (rs & us & R & U & S').
    exists (FPred n us). split.
    - unfold atomic_pred. rewrite terms_sx. cbn [of_opt bind]. rewrite R. cbn [bind]. rewrite U. cbn [bind].
      apply mk_pred_iff. split; auto. split; auto. now apply (same_terms_consistent us ts).
    - now constructor.
  Qed.
  Lemma atomic_eq_sx l r : In EQUALITY (g_ext c) -> fits c l -> fits c r -> name_consistent [l; r] ->
    exists g, atomic_eq c (term_sx l ++ term_sx r) = Ok g /\ sim g (FEq l r).
  Proof.
    intros Q L R N. destruct (resolve_fits l L) as (a & l' & A1 & A2 & A3).
    destruct (resolve_fits r R) as (b & r' & B1 & B2 & B3). exists (FEq l' r'). split.
    - unfold atomic_eq. assert (T : terms (term_sx l ++ term_sx r) = Some [pterm_of l; pterm_of r]).
      { pose proof (terms_sx [l; r]) as T. cbn [flat_map map] in T. now rewrite app_nil_r in T. }
      rewrite T, A1. cbn [bind]. rewrite B1. cbn [bind].
      assert (HQ : has EQUALITY (g_ext c) = true) by (unfold has; now apply memb_req_In).
      rewrite HQ. cbn [check bind]. rewrite A2. cbn [bind]. rewrite B2. cbn [bind].
      apply mk_eq_iff. split; auto. apply (same_terms_consistent _ [l; r]); auto.
    - now constructor.
  Qed.
  Lemma f_head_sim n ts : legal_function n -> Forall (fits c) ts ->
    exists us, f_head c (SList (name_sx n :: flat_map term_sx ts)) = Ok (FNumFun n us)
               /\ sim (FNumFun n us) (FNumFun n ts).
  Proof.
    intros L F. destruct (resolves_fits ts F) as (rs & us & R & U & S'). exists us. split.
    - unfold f_head, name_sx. rewrite terms_sx. cbn [of_opt bind]. rewrite R. cbn [bind]. rewrite U. cbn [bind].
      unfold mk_numfun. now rewrite (proj2 (parse_function_Ok n) L).
    - now constructor.
  Qed.

  (** function expressions *)
  Lemma mapR_sim (P : form -> Prop) p ops :
    Forall (fun f => P f -> nff f -> exists g, p (form_sx f) = Ok g /\ sim g f) ops ->
    Forall P ops -> Forall nff ops ->
    exists gs, mapR p (map form_sx ops) = Ok gs /\ Forall2 sim gs ops.
  Proof.
    induction ops as [|f ops IH]; intros F E N; [exists []; split; auto|].
    inversion F; inversion E; inversion N; subst.
    destruct H1 as (g & G & Q); auto. destruct IH as (gs & GS & QS); auto.
    exists (g :: gs). cbn. rewrite G, GS. auto.
  Qed.
  Lemma mapR_eqf (P : form -> Prop) p ops :
    Forall (fun f => P f -> nff f -> exists g, p (form_sx f) = Ok g /\ eqf g f) ops ->
    Forall P ops -> Forall nff ops ->
    exists gs, mapR p (map form_sx ops) = Ok gs /\ Forall2 eqf gs ops.
  Proof.
    induction ops as [|f ops IH]; intros F E N; [exists []; split; auto|].
    inversion F; inversion E; inversion N; subst.
    destruct H1 as (g & G & Q); auto. destruct IH as (gs & GS & QS); auto.
    exists (g :: gs). cbn. rewrite G, GS. auto.
  Qed.
  Lemma f_exp_sim f : expression c f -> nff f -> exists g, f_exp c (form_sx f) = Ok g /\ sim g f.
  Proof.
    induction f using form_ind'; intros E N; inversion E; subst.
    - destruct (f_head_sim n ts) as (us & H & Q); auto. exists (FNumFun n us). split; auto.
    - destruct (show_num_literal (NInt z)) as (w & W & Q & K); auto. exists (FNumVal w). cbn [form_sx f_exp].
      rewrite W. split; [auto|now constructor].
    - destruct (show_num_literal (NDec m e)) as (w & W & Q & K); auto. exists (FNumVal w). cbn [form_sx f_exp].
      rewrite W. split; [auto|now constructor].
    - apply (nff_raw (CFun BPlus)) in N as [N1 N2].
      destruct (mapR_sim _ (f_exp c) ops H H3 N1) as (gs & G & Q).
      exists (mk_binfun BPlus gs). split; [|now apply (sim_node (CFun BPlus))].
      cbn [form_sx bfun_sx bfun_symbol f_exp]. unfold arith_op. rewrite map_length.
      rewrite (proj2 (Nat.leb_le 2 (length ops)) H2). cbn [String.eqb Ascii.eqb Bool.eqb]. rewrite G. reflexivity.
    - apply (nff_raw (CFun BTimes)) in N as [N1 N2].
      destruct (mapR_sim _ (f_exp c) ops H H3 N1) as (gs & G & Q).
      exists (mk_binfun BTimes gs). split; [|now apply (sim_node (CFun BTimes))].
      cbn [form_sx bfun_sx bfun_symbol f_exp]. unfold arith_op. rewrite map_length.
      rewrite (proj2 (Nat.leb_le 2 (length ops)) H2). cbn [String.eqb Ascii.eqb Bool.eqb]. rewrite G. reflexivity.
    - apply (nff_raw (CFun BDivide)) in N as [N1 N2].
      destruct (mapR_sim _ (f_exp c) [a; b] H) as (gs & G & Q); [auto|auto|].
      exists (mk_binfun BDivide gs). split; [|now apply (sim_node (CFun BDivide))].
      cbn [form_sx bfun_sx bfun_symbol f_exp]. rewrite G. reflexivity.
    - apply (nff_raw (CFun BMinus)) in N as [N1 N2].
      destruct (mapR_sim _ (f_exp c) [a] H) as (gs & G & Q); [auto|auto|].
      exists (mk_binfun BMinus gs). split; [|now apply (sim_node (CFun BMinus))].
      cbn [form_sx bfun_sx bfun_symbol f_exp]. rewrite G. reflexivity.
  Qed.

  (** conditions *)
  Lemma legal_neq n w : legal_name n -> In w reserved_words -> String.eqb n w = false.
  Proof. intros [_ N] H. apply String.eqb_neq. intros ->. contradiction. Qed.
  Lemma gd_pred_sx n args : legal_name n -> gd c (SList (name_sx n :: args)) = atomic_pred c n args.
  Proof.
    intros L. unfold name_sx. cbn [gd].
    rewrite !(legal_neq n) by (auto; cbn; tauto). reflexivity.
  Qed.
  Lemma starts_term_sx t l : starts_term (term_sx t ++ l) = true.
  Proof. destruct t; reflexivity. Qed.
  Lemma expression_not_term e l : expression c e -> starts_term (form_sx e :: l) = false.
  Proof. intros E. inversion E; reflexivity. Qed.
  Lemma block_back vs : block vs -> g_ext c <> [] -> exists tl ws,
    g_vars c (flat_map plain_sx vs) = Ok tl /\ mk_vars tl = Ok ws /\ Forall2 same_var ws vs.
  Proof.
    intros (L & O & U & R) E. destruct V as [->|E0]; [|contradiction].
    destruct (proj2 (back_plain vs L)) as (ws & H & S'); auto.
    unfold back in H. apply bind_Ok in H as (tl & H1 & H2). exists tl, ws. auto.
  Qed.
  Lemma allowed_ext rs : allowed c rs -> g_ext c <> [].
  Proof. intros (r & _ & H) E. rewrite E in H. contradiction. Qed.
  Lemma gd_sim f : condition c f -> nff f -> exists g, gd c (form_sx f) = Ok g /\ sim g f.
  Proof.
    assert (A : forall f, atom_form c f -> exists g, gd c (form_sx f) = Ok g /\ sim g f).
    { intros f0 [n ts L F N|l r Q L R N].
      - cbn [form_sx]. rewrite gd_pred_sx by auto. now apply atomic_pred_sx.
      - cbn [form_sx gd]. cbn [String.eqb Ascii.eqb Bool.eqb andb]. rewrite starts_term_sx.
        now apply atomic_eq_sx. }
    induction f using form_ind'; intros C N; inversion C; subst;
      try (match goal with H : atom_form c _ |- _ => now apply A end);
      try (match goal with H : allowed c _ |- _ => rename H into AL end);
      try (match goal with H : Forall (condition c) _ |- _ => rename H into FC end).
    - (* comparison *)
      apply (nff_raw (CFun k)) in N as [N1 N2].
      inversion N1 as [|? ? Na N1']; inversion N1' as [|? ? Nb _]; subst.
      destruct (f_exp_sim a) as (a' & A1 & A2); auto. destruct (f_exp_sim b) as (b' & B1 & B2); auto.
      exists (mk_binfun k [a'; b']). split; [|apply (sim_node (CFun k)); auto].
      pose proof (expression_not_term a [form_sx b] H3) as ST.
      cbn [form_sx map]. repeat destruct H2 as [<-|H2]; [..|contradiction]; cbn [bfun_sx bfun_symbol gd];
        cbn [String.eqb Ascii.eqb Bool.eqb andb]; rewrite ?ST; cbn [Parser.comparison]; rewrite A1; cbn [bind];
        rewrite B1; reflexivity.
    - (* and *)
      apply (nff_raw (CBin OAnd)) in N as [N1 N2].
      destruct (mapR_sim _ (gd c) ops H FC N1) as (gs & G & Q).
      exists (mk_and gs). split; [|now apply (sim_node (CBin OAnd))].
      cbn [form_sx bop_symbol name_sx gd String.eqb Ascii.eqb Bool.eqb]. now rewrite G.
    - (* or *)
      apply (nff_raw (CBin OOr)) in N as [N1 N2].
      destruct (mapR_sim _ (gd c) ops H FC N1) as (gs & G & Q).
      exists (mk_or gs). split; [|now apply (sim_node (CBin OOr))].
      cbn [form_sx bop_symbol name_sx gd String.eqb Ascii.eqb Bool.eqb]. rewrite G. cbn [bind].
      rewrite (allowed_any c _ AL). reflexivity.
    - (* imply *)
      apply (nff_raw (CBin OImply)) in N as [N1 N2].
      inversion H as [|? ? Ia H']; inversion H' as [|? ? Ib _]; subst.
      inversion N1 as [|? ? Na N1']; inversion N1' as [|? ? Nb _]; subst.
      destruct Ia as (a' & A1 & A2); auto. destruct Ib as (b' & B1 & B2); auto.
      exists (mk_bin OImply [a'; b']). split; [|apply (sim_node (CBin OImply)); auto].
      cbn [form_sx bop_symbol name_sx gd map String.eqb Ascii.eqb Bool.eqb].
      rewrite A1. cbn [bind]. rewrite B1. cbn [bind]. rewrite (allowed_any c _ AL). reflexivity.
    - (* not *)
      destruct IHf as (g & G & Q); auto. exists (FNot g). split; [|now constructor].
      cbn [form_sx name_sx gd String.eqb Ascii.eqb Bool.eqb]. now rewrite G.
    - (* exists *)
      destruct N as [N1 N2]. destruct IHf as (g & G & Q); auto.
      destruct (block_back vs) as (tl & ws & T & W & S'); [auto|now apply (allowed_ext _ AL)|].
      exists (mk_quant QExists ws g). split.
      + cbn [form_sx quant_symbol name_sx gd String.eqb Ascii.eqb Bool.eqb orb].
        rewrite T. cbn [bind]. rewrite G. cbn [bind]. rewrite (allowed_any c _ AL). cbn [check bind].
        now rewrite W.
      + constructor; auto. eapply dedup_block; eauto. match goal with H : block _ |- _ => apply H end.
    - (* forall *)
      destruct N as [N1 N2]. destruct IHf as (g & G & Q); auto.
      destruct (block_back vs) as (tl & ws & T & W & S'); [auto|now apply (allowed_ext _ AL)|].
      exists (mk_quant QForall ws g). split.
      + cbn [form_sx quant_symbol name_sx gd String.eqb Ascii.eqb Bool.eqb orb].
        rewrite T. cbn [bind]. rewrite G. cbn [bind]. rewrite (allowed_any c _ AL). cbn [check bind].
        now rewrite W.
      + constructor; auto. eapply dedup_block; eauto. match goal with H : block _ |- _ => apply H end.
  Qed.

  (** effects *)
  Lemma atomic_formula_term_sx f : atom_form c f ->
    exists g, atomic_formula_term c (form_sx f) = Ok g /\ sim g f.
  Proof. intros [n ts L F N|l r Q L R N]; [now apply atomic_pred_sx|now apply atomic_eq_sx]. Qed.
  Lemma assign_op_none n : legal_name n -> assign_op n = None.
  Proof. intros L. unfold assign_op. rewrite !(legal_neq n) by (auto; cbn; tauto). reflexivity. Qed.
  Lemma p_effect_sim f : primitive c f -> nff f -> exists g, p_effect c (form_sx f) = Ok g /\ sim g f.
  Proof.
    intros [f0 A|f0 A|k n ts e K L F E] N.
    - destruct (atomic_formula_term_sx f0 A) as (g & G & Q). exists g. split; auto. rewrite <- G.
      destruct A as [n ts L F N0|l r Q0 L R N0]; auto.
      cbn [form_sx]. unfold name_sx, p_effect. now rewrite (legal_neq n), assign_op_none by (auto; cbn; tauto).
    - destruct (atomic_formula_term_sx f0 A) as (g & G & Q). exists (FNot g). split; [|now constructor].
      cbn [form_sx]. unfold name_sx, p_effect. cbn [String.eqb Ascii.eqb Bool.eqb]. now rewrite G.
    - apply (nff_raw (CFun k)) in N as [N1 N2]. inversion N1 as [|? ? _ N1']; inversion N1' as [|? ? Ne _]; subst.
      destruct (f_head_sim n ts L F) as (us & H1 & Q1). destruct (f_exp_sim e E Ne) as (g & G & Q).
      exists (mk_binfun k [FNumFun n us; g]). split; [|apply (sim_node (CFun k)); auto].
      cbn [form_sx map].
      assert (X : forall h x, p_effect c (SList [bfun_sx k; h; x])
        = let* f := f_head c h in let* g := f_exp c x in Ok (mk_binfun k [f; g])).
      { intros h x. repeat destruct K as [<-|K]; [..|contradiction]; reflexivity. }
      rewrite X, H1. cbn [bind]. now rewrite G.
  Qed.
  Lemma primitive_head f : primitive c f ->
    (exists w args, form_sx f = SList (name_sx w :: args) /\ ~ In w ["and"; "forall"; "when"; "oneof"])
    \/ (exists args, form_sx f = SList (SAtom (TOp "=") :: args)).
  Proof.
    intros [f0 A|f0 A|k n ts e K L F E].
    - destruct A as [n ts L F N0|l r Q0 L R N0]; [left|right; eexists; reflexivity].
      exists n. eexists. split; [reflexivity|]. intros H. destruct L as [_ L]. apply L. cbn in H |- *. tauto.
    - left. exists "not". eexists. split; [reflexivity|]. cbn. intuition discriminate.
    - left. repeat destruct K as [<-|K]; [..|contradiction]; eexists; eexists; (split; [reflexivity|]); cbn; intuition discriminate.
  Qed.
  Lemma not_in_neq w l x : ~ In w l -> In x l -> String.eqb w x = false.
  Proof. intros N I. apply String.eqb_neq. intros ->. contradiction. Qed.
  Lemma effect_prim b f : primitive c f -> effect c b (form_sx f) = p_effect c (form_sx f).
  Proof.
    intros P. destruct (primitive_head f P) as [(w & args & E & N)|(args & E)]; rewrite E; [|reflexivity].
    unfold name_sx. cbn [effect]. rewrite !(not_in_neq w _ _ N) by (cbn; tauto). now rewrite andb_false_r.
  Qed.
  Lemma cond_effect_prim f : primitive c f -> cond_effect c (form_sx f) = p_effect c (form_sx f).
  Proof.
    intros P. destruct (primitive_head f P) as [(w & args & E & N)|(args & E)]; rewrite E; [|reflexivity].
    unfold name_sx, cond_effect. now rewrite !(not_in_neq w _ _ N) by (cbn; tauto).
  Qed.
  Lemma cond_effect_sim f : consequence c f -> nff f -> exists g, cond_effect c (form_sx f) = Ok g /\ sim g f.
  Proof.
    intros [f0 P|ops P] N.
    - rewrite cond_effect_prim by auto. now apply p_effect_sim.
    - apply (nff_raw (CBin OAnd)) in N as [N1 N2].
      destruct (mapR_sim (primitive c) (p_effect c) ops) as (gs & G & Q); auto.
      { apply Forall_forall. intros x _. apply p_effect_sim. }
      exists (mk_and gs). split; [|now apply (sim_node (CBin OAnd))].
      cbn [form_sx bop_symbol name_sx cond_effect String.eqb Ascii.eqb Bool.eqb]. now rewrite G.
  Qed.
  Lemma effect_sim f : g_vars c = typed_list_variable -> forall b, effect_form c b f -> nff f ->
    exists g, effect c b (form_sx f) = Ok g /\ sim g f.
  Proof.
    intros V'. induction f using form_ind'; intros b E N; inversion E; subst;
      try (rewrite effect_prim by auto; now apply p_effect_sim).
    - (* and *)
      apply (nff_raw (CBin OAnd)) in N as [N1 N2].
      destruct (mapR_sim (effect_form c false) (effect c false) ops) as (gs & G & Q); auto.
      { eapply Forall_impl; [|exact H]. auto. }
      exists (mk_and gs). split; [|now apply (sim_node (CBin OAnd))].
      cbn [form_sx bop_symbol name_sx effect String.eqb Ascii.eqb Bool.eqb andb]. now rewrite G.
    - (* oneof *)
      apply (nff_raw (CBin OOneOf)) in N as [N1 N2].
      destruct (mapR_sim (effect_form c true) (effect c true) ops) as (gs & G & Q); auto.
      { eapply Forall_impl; [|exact H]. auto. }
      exists (mk_bin OOneOf gs). split; [|now apply (sim_node (CBin OOneOf))].
      cbn [form_sx bop_symbol name_sx effect String.eqb Ascii.eqb Bool.eqb andb]. rewrite andb_false_r.
      destruct ops as [|o ops]; [contradiction|]. cbn [map] in *. rewrite G. cbn [bind].
      assert (HN : has NON_DETERMINISTIC (g_ext c) = true) by (unfold has; now apply memb_req_In).
      rewrite HN. reflexivity.
    - (* when *)
      destruct N as [N1 N2]. destruct (gd_sim f1) as (g1 & G1 & Q1); auto.
      destruct (cond_effect_sim f2) as (g2 & G2 & Q2); auto. exists (FWhen g1 g2). split.
      + cbn [form_sx name_sx effect String.eqb Ascii.eqb Bool.eqb]. rewrite andb_false_r.
        rewrite G1. cbn [bind]. now rewrite G2.
      + now constructor.
    - (* forall *)
      destruct N as [N1 N2]. destruct (IHf true) as (g & G & Q); auto.
      destruct H2 as (L & O & U & R). destruct (proj2 (back_plain vs L)) as (ws & H & S'); auto.
      unfold back in H. apply bind_Ok in H as (tl & T & W).
      exists (mk_forall ws g). split.
      + cbn [form_sx name_sx effect String.eqb Ascii.eqb Bool.eqb]. rewrite andb_false_r, V'.
        rewrite T. cbn [bind]. rewrite G. cbn [bind]. now rewrite W.
      + constructor; auto. eapply dedup_block; eauto.
  Qed.

  (** the text *)
  Lemma expression_readable f : expression c f -> readable f.
  Proof.
    induction f using form_ind'; intros E; inversion E; subst; cbn [readable]; auto.
    - split; [apply H1|now apply fits_legals].
    - destruct (show_num_numeral (NInt z)) as (q & r & N & _); eauto using numeral_dotted.
    - destruct (show_num_numeral (NDec m e)) as (q & r & N & _); eauto using numeral_dotted.
    - apply fold_and_Forall'. rewrite Forall_forall in *. auto.
    - apply fold_and_Forall'. rewrite Forall_forall in *. auto.
    - inversion H as [|? ? H1 H4]; inversion H4; subst. cbn. auto.
    - inversion H as [|? ? H2 H4]; subst. cbn. auto.
  Qed.
  Lemma atom_readable f : atom_form c f -> readable f.
  Proof.
    intros [n ts L F N|l r Q L R N]; cbn.
    - split; [apply L|now apply fits_legals].
    - split; now apply fits_legal.
  Qed.
  Lemma condition_readable f : condition c f -> readable f.
  Proof.
    induction f using form_ind'; intros C; inversion C; subst; cbn [readable];
      try (now match goal with H : atom_form c _ |- _ => apply atom_readable in H end); auto.
    - cbn. split; [now apply expression_readable|split; [now apply expression_readable|auto]].
    - apply fold_and_Forall'. rewrite Forall_forall in *. auto.
    - apply fold_and_Forall'. rewrite Forall_forall in *. auto.
    - inversion H as [|? ? Ia H']; inversion H' as [|? ? Ib _]; subst. cbn. auto.
    - split; auto. match goal with H : block _ |- _ => apply H end.
    - split; auto. match goal with H : block _ |- _ => apply H end.
  Qed.
  Lemma primitive_readable f : primitive c f -> readable f.
  Proof.
    intros [f0 A|f0 A|k n ts e K L F E].
    - now apply atom_readable.
    - cbn. now apply atom_readable.
    - cbn. split; [split; [apply L|now apply fits_legals]|split; [now apply expression_readable|auto]].
  Qed.
  Lemma consequence_readable f : consequence c f -> readable f.
  Proof.
    intros [f0 P|ops P]; [now apply primitive_readable|]. cbn. apply fold_and_Forall'.
    eapply Forall_impl; [|exact P]. apply primitive_readable.
  Qed.
  Lemma effect_readable f : forall b, effect_form c b f -> readable f.
  Proof.
    induction f using form_ind'; intros b E; inversion E; subst;
      try (now match goal with H : primitive c _ |- _ => apply primitive_readable in H end); cbn [readable].
    - apply fold_and_Forall'. rewrite Forall_forall in *. eauto.
    - apply fold_and_Forall'. rewrite Forall_forall in *. eauto.
    - split; [now apply condition_readable|now apply consequence_readable].
    - split; [|eauto]. match goal with H : block _ |- _ => apply H end.
  Qed.
  Lemma emptyor_pregd_sim f : condition c f -> nff f ->
    exists g, emptyor_pregd c (form_sx f) = Ok g /\ sim g f.
  Proof.
    intros C N. replace (emptyor_pregd c (form_sx f)) with (gd c (form_sx f)); [now apply gd_sim|].
    destruct f; reflexivity.
  Qed.
  Lemma emptyor_effect_sim f : g_vars c = typed_list_variable -> effect_form c true f -> nff f ->
    exists g, emptyor_effect c (form_sx f) = Ok g /\ sim g f.
  Proof.
    intros V' C N. replace (emptyor_effect c (form_sx f)) with (effect c true (form_sx f)); [now apply effect_sim|].
    destruct f; reflexivity.
  Qed.
  (** up to == *)
  Lemma weaken r f : (exists g, r = Ok g /\ sim g f) -> exists g, r = Ok g /\ eqf g f.
  Proof. intros (g & H & S'). exists g. split; auto. now apply sim_eqf. Qed.
  Lemma gd_sx f : condition c f -> nff f -> exists g, gd c (form_sx f) = Ok g /\ eqf g f.
  Proof. intros. now apply weaken, gd_sim. Qed.
  Lemma p_effect_sx f : primitive c f -> nff f -> exists g, p_effect c (form_sx f) = Ok g /\ eqf g f.
  Proof. intros. now apply weaken, p_effect_sim. Qed.
  Lemma f_exp_sx f : expression c f -> nff f -> exists g, f_exp c (form_sx f) = Ok g /\ eqf g f.
  Proof. intros. now apply weaken, f_exp_sim. Qed.
  Lemma emptyor_pregd_sx f : condition c f -> nff f ->
    exists g, emptyor_pregd c (form_sx f) = Ok g /\ eqf g f.
  Proof. intros. now apply weaken, emptyor_pregd_sim. Qed.
  Lemma emptyor_effect_sx f : g_vars c = typed_list_variable -> effect_form c true f -> nff f ->
    exists g, emptyor_effect c (form_sx f) = Ok g /\ eqf g f.
  Proof. intros. now apply weaken, emptyor_effect_sim. Qed.
  Lemma condition_text f : built f -> condition c f ->
    exists g, condition_in c (show_form f) = Ok g /\ form_eqb g f = true.
  Proof.
    intros B C. unfold condition_in. rewrite (rx_read _ _ (rx_form f (condition_readable f C))).
    apply emptyor_pregd_sx; auto. now apply built_nff.
  Qed.
  Lemma effect_text f : g_vars c = typed_list_variable -> built f -> effect_form c true f ->
    exists g, effect_in c (show_form f) = Ok g /\ form_eqb g f = true.
  Proof.
    intros V' B C. unfold effect_in. rewrite (rx_read _ _ (rx_form f (effect_readable f true C))).
    apply emptyor_effect_sx; auto. now apply built_nff.
  Qed.
End Context.
