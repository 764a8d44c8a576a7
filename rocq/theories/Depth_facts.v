(** Proofs for C87: nesting. *)
From Coq Require Import String Ascii List Bool Lia Arith NArith.
From Verif Require Import Py Names Reqs Logic Validation Core Lexer TypedList Parser Spec_Depth.
From Verif Require Import UpdateTags Spec_Parse Parse_facts Domain_facts Problem_facts CoreEq_facts FormatDomain_facts Action_facts.
From Verif Require Import Py_facts Logic_facts Ops_facts Built_facts Text_facts Grammar_facts GD_facts Size_facts.
Import ListNotations.
Open Scope string_scope.
Open Scope list_scope.

Definition below (n : nat) (l : list form) : Prop := Forall (fun g => depth g <= n) l.
Lemma fold_max_below n (l : list form) : fold_right (fun g m => Nat.max (depth g) m) 0 l <= n <-> below n l.
Proof.
  unfold below. induction l as [|x l IH]; cbn; [split; [constructor|lia]|].
  split; [intros H; constructor; [|apply IH]; lia|intros H; inversion H; subst; apply IH in H3; lia].
Qed.
Lemma leaves_depth c f : forall n, depth f <= n -> below n (leaves c f).
Proof.
  induction f using form_ind'; intros m D; cbn [leaves]; try (constructor; [exact D|constructor]).
  - destruct (match c with CFun k' => bfun_eqb k' k | _ => false end); [|constructor; [exact D|constructor]].
    cbn [depth] in D. assert (B : below m ops) by (apply fold_max_below; lia). unfold below in *. apply Forall_flat_map. rewrite Forall_forall in *.
    intros x I. apply H; auto.
  - destruct (match c with CBin k' => bop_eqb k' k | _ => false end); [|constructor; [exact D|constructor]].
    cbn [depth] in D. assert (B : below m ops) by (apply fold_max_below; lia). unfold below in *. apply Forall_flat_map. rewrite Forall_forall in *.
    intros x I. apply H; auto.
Qed.
Lemma dedup_below n l : below n l -> below n (dedup form_eqb l).
Proof.
  unfold below. rewrite !Forall_forall. intros H x I. apply H. assert (X : forall l seen, In x (dedup_from form_eqb seen l) -> In x l).
  { clear. induction l as [|y l IH]; cbn; intros seen K; auto. destruct (memb form_eqb y seen); [eauto|]. destruct K; eauto. }
  unfold dedup in I. eapply X; eauto.
Qed.
Lemma raw_depth c ops n : below n ops -> depth (raw_node c ops) <= S n.
Proof. intros B. apply fold_max_below in B. destruct c; cbn; lia. Qed.
Lemma mk_op_depth c ops n : below n ops -> depth (mk_op c ops) <= S n.
Proof.
  intros B. unfold mk_op. destruct (metaclass c) as [i|]; [|now apply raw_depth].
  assert (S : below n (simplify_operands c i ops)).
  { rewrite simplify_spec. assert (X : below n (if i then dedup form_eqb ops else ops)) by (destruct i; auto; now apply dedup_below).
    destruct (if i then dedup form_eqb ops else ops) as [|x [|y l]]; auto. apply dedup_below. unfold below. apply Forall_flat_map.
    eapply Forall_impl; [|exact X]. intros z. apply leaves_depth. }
  destruct (simplify_operands c i ops) as [|x [|y l]]; try now apply raw_depth.
  destruct i; try now apply raw_depth. inversion S; subst. lia.
Qed.

(** ** groups *)
Fixpoint levels (s : sexp) : nat :=
  match s with SAtom _ => 0 | SList l => S (fold_right (fun x n => Nat.max (levels x) n) 0 l) end.
Definition within_levels (n : nat) (l : list sexp) : Prop := Forall (fun x => levels x <= n) l.
Lemma levels_list l n : levels (SList l) <= S n <-> within_levels n l.
Proof.
  unfold within_levels. cbn. induction l as [|x l IH]; cbn; [split; [constructor|lia]|].
  split; [intros H; constructor; [|apply IH]; lia|intros H; inversion H; subst; apply IH in H3; lia].
Qed.
Lemma levels_pos l n : levels (SList l) <= n -> exists m, n = S m /\ within_levels m l.
Proof. destruct n as [|m]; [cbn; lia|]. intros H. exists m. split; auto. now apply levels_list. Qed.
Lemma mapR_below {A} (f : A -> res form) l ops (P : A -> Prop) n : mapR f l = Ok ops -> Forall (fun x => forall y, f x = Ok y -> P x -> depth y <= n) l -> Forall P l -> below n ops.
Proof. intros M. apply mapR_Ok in M. induction M as [|x y l ops E M IH]; intros F W; [constructor|]. inversion F; inversion W; subst. constructor; auto. now apply IH. Qed.

Lemma atomic_depth c s f : atomic_formula_term c s = Ok f -> depth f = 0.
Proof.
  destruct s as [|[|[[]|] args]]; try discriminate; cbn [atomic_formula_term]; intros H.
  - unfold atomic_pred in H. apply bind_Ok in H as (? & _ & H). apply bind_Ok in H as (? & _ & H). apply bind_Ok in H as (? & _ & H). apply mk_pred_Ok in H. now subst.
  - destruct (String.eqb s "="); [|discriminate]. unfold atomic_eq in H. destruct (terms args) as [[|a [|b [|]]]|]; try discriminate.
    apply bind_Ok in H as (? & _ & H). apply bind_Ok in H as (? & _ & H). apply bind_Ok in H as (? & _ & H).
    apply bind_Ok in H as (? & _ & H). apply bind_Ok in H as (? & _ & H). apply mk_eq_Ok in H. now subst.
Qed.
Lemma f_head_depth c s f : f_head c s = Ok f -> depth f = 0.
Proof.
  destruct s as [[]|[|[[]|] args]]; try discriminate; cbn [f_head]; intros H.
  - apply mk_numfun_Ok in H. now subst.
  - apply bind_Ok in H as (? & _ & H). apply bind_Ok in H as (? & _ & H). apply bind_Ok in H as (? & _ & H). apply mk_numfun_Ok in H. now subst.
Qed.
Lemma f_exp_depth c s : forall f, f_exp c s = Ok f -> forall n, levels s <= n -> depth f <= n.
Proof.
  induction s as [t|l IH] using sexp_ind'; intros f H n L.
  - destruct t; try discriminate; [change (f_head c (SAtom (TWord s)) = Ok f) in H; apply f_head_depth in H; lia|]. cbn in H. apply bind_Ok in H as (v & _ & H). inversion H; subst. cbn. lia.
  - destruct l as [|[[]|] args]; try discriminate. { change (f_head c (SList (SAtom (TWord s) :: args)) = Ok f) in H. apply f_head_depth in H. lia. }
    cbn [f_exp] in H. destruct (arith_op s (length args)); [|discriminate]. apply bind_Ok in H as (ops & M & H). apply Ok_inj in H. subst.
    inversion IH as [|? ? _ IH']; subst. apply levels_pos in L as (m & -> & L). inversion L as [|? ? _ La]; subst.
    apply mk_op_depth. eapply mapR_below; [exact M| |exact La]. eapply Forall_impl; [|exact IH']. intros x Hx y E. now apply Hx.
Qed.
Lemma pair_depth c f g n : depth f <= n -> depth g <= n -> depth (mk_op c [f; g]) <= S n.
Proof. intros A B. apply mk_op_depth. repeat constructor; auto. Qed.
Lemma gd_depth c s : forall f, gd c s = Ok f -> forall n, levels s <= n -> depth f <= n.
Proof.
  induction s as [t|l IH] using sexp_ind'; intros f H n L; [discriminate|].
  destruct l as [|[[]|] args]; try discriminate; inversion IH as [|? ? _ IH']; subst; clear IH; pose proof L as L0; apply levels_pos in L as (m & -> & L); inversion L as [|? ? _ La]; subst.
  - assert (At : atomic_pred c s args = Ok f -> depth f <= S m). { intros E. rewrite (atomic_depth c (SList (SAtom (TWord s) :: args)) f E). lia. }
    cbn [gd] in H.
    assert (Ops : forall fs k, mapR (gd c) args = Ok fs -> depth (mk_bin k fs) <= S m).
    { intros fs k M. apply mk_op_depth. eapply mapR_below; [exact M| |exact La]. eapply Forall_impl; [|exact IH']. intros x Hx y E. now apply Hx. }
    destruct (String.eqb s "or").
    { apply bind_Ok in H as (fs & M & H). apply bind_Ok in H as (? & _ & H). apply Ok_inj in H. subst. apply (Ops fs OOr M). }
    destruct (String.eqb s "not").
    { destruct args as [|x [|]]; try discriminate. apply bind_Ok in H as (g & M & H). apply Ok_inj in H. subst. inversion IH' as [|? ? Hx _]; inversion La; subst.
      specialize (Hx _ M m). cbn. lia. }
    destruct (String.eqb s "and").
    { apply bind_Ok in H as (fs & M & H). apply Ok_inj in H. subst. apply (Ops fs OAnd M). }
    destruct (String.eqb s "imply").
    { destruct args as [|x [|y [|]]]; try discriminate. apply bind_Ok in H as (g & M & H). apply bind_Ok in H as (g' & M' & H).
      apply bind_Ok in H as (? & _ & H). apply Ok_inj in H. subst. inversion IH' as [|? ? Ix IH1]; subst. inversion IH1 as [|? ? Iy _]; subst. inversion La as [|? ? Lx L1]; subst. inversion L1 as [|? ? Ly _]; subst.
      apply pair_depth; auto. }
    destruct (String.eqb s "exists" || String.eqb s "forall"); [|auto].
    destruct (if String.eqb s "exists" then (QExists, EXISTENTIAL_PRECONDITION) else (QForall, UNIVERSAL_PRECONDITION)) as [q r].
    destruct args as [|[|vs] [|x [|]]]; try discriminate. apply bind_Ok in H as (tl & V & H). apply bind_Ok in H as (g & M & H). apply bind_Ok in H as (? & _ & H). apply bind_Ok in H as (vars & _ & H).
    apply Ok_inj in H. subst. inversion IH' as [|? ? _ IH1]; subst. inversion IH1 as [|? ? Ix _]; subst. inversion La as [|? ? _ L1]; subst. inversion L1 as [|? ? Lx _]; subst.
    specialize (Ix _ M m Lx). cbn. lia.
  - cbn [gd] in H. destruct (String.eqb s "=" && starts_term args) eqn:Q.
    { apply andb_true_iff in Q as [Q _]. assert (E : atomic_formula_term c (SList (SAtom (TOp s) :: args)) = Ok f) by (cbn [atomic_formula_term]; now rewrite Q). apply atomic_depth in E. lia. }
    destruct (comparison s) as [k|]; [|discriminate]. destruct args as [|x [|y [|]]]; try discriminate.
    apply bind_Ok in H as (g & M & H). apply bind_Ok in H as (g' & M' & H). apply Ok_inj in H. subst. inversion La as [|? ? Lx L1]; subst. inversion L1 as [|? ? Ly _]; subst.
    apply pair_depth; eapply f_exp_depth; eauto.
Qed.
Lemma emptyor_pregd_depth c s f : emptyor_pregd c s = Ok f -> depth f <= levels s.
Proof. destruct s as [|[|]]; try (intros H; eapply gd_depth; eauto; fail). intros [= <-]. cbn. lia. Qed.
Lemma p_effect_depth c s f : p_effect c s = Ok f -> forall n, levels s <= n -> depth f <= n.
Proof.
  destruct s as [|[|[[]|] args]]; try discriminate. 2:{ intros H n _. change (atomic_formula_term c (SList (SAtom (TOp s) :: args)) = Ok f) in H. apply atomic_depth in H. lia. }
  intros H n L. cbn [p_effect] in H. apply levels_pos in L as (m & -> & L); inversion L as [|? ? _ La]; subst. destruct (String.eqb s "not").
  { destruct args as [|x [|]]; try discriminate. apply bind_Ok in H as (g & M & H). apply Ok_inj in H. subst. apply atomic_depth in M. cbn. lia. }
  destruct (assign_op s); [|apply atomic_depth in H; lia].
  destruct args as [|x [|y [|]]]; try discriminate. apply bind_Ok in H as (g & M & H). apply bind_Ok in H as (g' & M' & H). apply Ok_inj in H. subst. inversion La as [|? ? Lx L1]; subst. inversion L1 as [|? ? Ly _]; subst.
  apply pair_depth; [apply f_head_depth in M; lia|]. eapply f_exp_depth; eauto.
Qed.
Lemma cond_effect_depth c s f : cond_effect c s = Ok f -> forall n, levels s <= n -> depth f <= n.
Proof.
  destruct s as [|[|[[]|] args]]; try discriminate; try apply (p_effect_depth c).
  cbn [cond_effect]. destruct (String.eqb s "and"); [|apply p_effect_depth]. intros H n L. apply bind_Ok in H as (fs & M & H). apply Ok_inj in H. subst.
  apply levels_pos in L as (m & -> & L); inversion L as [|? ? _ La]; subst. apply mk_op_depth. eapply mapR_below; [exact M| |exact La].
  apply Forall_forall. intros x _ y E Lx. eapply p_effect_depth; eauto.
Qed.
Lemma effect_depth c s : forall top f, effect c top s = Ok f -> forall n, levels s <= n -> depth f <= n.
Proof.
  induction s as [t|l IH] using sexp_ind'; intros top f H n L; [discriminate|].
  destruct l as [|[[]|] args]; try discriminate; [|eapply (p_effect_depth c); [exact H|exact L]].
  inversion IH as [|? ? _ IH']; subst; clear IH. cbn [effect] in H. pose proof L as L0. apply levels_pos in L as (m & -> & L); inversion L as [|? ? _ La]; subst.
  assert (Ops : forall b fs k, mapR (effect c b) args = Ok fs -> depth (mk_bin k fs) <= S m).
  { intros b fs k M. apply mk_op_depth. eapply mapR_below; [exact M| |exact La]. eapply Forall_impl; [|exact IH']. intros x Hx y E. now apply (Hx b). }
  destruct (top && String.eqb s "and").
  { apply bind_Ok in H as (fs & M & H). apply Ok_inj in H. subst. apply (Ops false fs OAnd M). }
  destruct (String.eqb s "forall").
  { destruct args as [|[|vs] [|x [|]]]; try discriminate. apply bind_Ok in H as (tl & V & H). apply bind_Ok in H as (g & M & H). apply bind_Ok in H as (vars & _ & H).
    apply Ok_inj in H. subst. inversion IH' as [|? ? _ IH1]; subst. inversion IH1 as [|? ? Ix _]; subst. inversion La as [|? ? _ L1]; subst. inversion L1 as [|? ? Lx _]; subst.
    specialize (Ix _ _ M m Lx). cbn. lia. }
  destruct (String.eqb s "when").
  { destruct args as [|x [|y [|]]]; try discriminate. apply bind_Ok in H as (g & M & H). apply bind_Ok in H as (g' & M' & H). apply Ok_inj in H. subst. inversion La as [|? ? Lx L1]; subst. inversion L1 as [|? ? Ly _]; subst.
    pose proof (gd_depth _ _ _ M m Lx). pose proof (cond_effect_depth _ _ _ M' m Ly). cbn. lia. }
  destruct (String.eqb s "oneof"); [|eapply p_effect_depth; eauto].
  destruct args as [|a args]; [discriminate|]. apply bind_Ok in H as (fs & M & H). apply bind_Ok in H as (? & _ & H). apply Ok_inj in H. subst. apply (Ops true fs OOneOf M).
Qed.
Lemma emptyor_effect_depth c s f : emptyor_effect c s = Ok f -> depth f <= levels s.
Proof. destruct s as [|[|]]; try (intros H; eapply effect_depth; eauto; fail). intros [= <-]. cbn. lia. Qed.

Lemma update_depth f : forall m f' z, update_type_tags m f = Ok f' -> depth f <= z -> depth f' <= z.
Proof.
  induction f using form_ind'; intros m f' z E D; cbn [update_type_tags] in E; try discriminate.
  - apply bind_Ok in E as (ts' & M & E). apply mk_pred_Ok in E. subst. cbn. lia.
  - apply bind_Ok in E as (l' & _ & E). apply bind_Ok in E as (r' & _ & E). apply mk_eq_Ok in E. subst. cbn. lia.
  - apply bind_Ok in E as (ts' & M & E). apply mk_numfun_Ok in E. subst. cbn. lia.
  - apply Ok_inj in E. subst. cbn. lia.
  - apply bind_Ok in E as (ops' & M & E). apply Ok_inj in E. subst. cbn [depth] in D. destruct z as [|z]; [lia|].
    assert (B : below z ops) by (apply fold_max_below; lia). apply mk_op_depth. eapply mapR_below; [exact M| |exact B].
    eapply Forall_impl; [|exact H]. intros g Hg y E Dg. eapply Hg; eauto.
  - apply bind_Ok in E as (ops' & M & E). apply Ok_inj in E. subst. cbn [depth] in D. destruct z as [|z]; [lia|].
    assert (B : below z ops) by (apply fold_max_below; lia). apply mk_op_depth. eapply mapR_below; [exact M| |exact B].
    eapply Forall_impl; [|exact H]. intros g Hg y E Dg. eapply Hg; eauto.
  - apply bind_Ok in E as (g' & M & E). apply Ok_inj in E. subst. cbn [depth] in D. destruct z as [|z]; [lia|]. apply (IHf _ _ z) in M; [|lia]. cbn. lia.
  - apply bind_Ok in E as (g' & M & E). apply Ok_inj in E. subst. cbn [depth] in D. destruct z as [|z]; [lia|]. apply (IHf _ _ z) in M; [|lia]. cbn. lia.
Qed.

(** ** the text *)
Fixpoint running (open : nat) (ts : list token) : nat :=
  match ts with
  | [] => open
  | LPAR :: r => running (S open) r
  | RPAR :: r => Nat.max open (running (pred open) r)
  | _ :: r => running open r
  end.
Lemma running_ge ts : forall o, o <= running o ts.
Proof. induction ts as [|[] ts IH]; intros o; cbn; auto; try apply IH; [specialize (IH (S o))|]; lia. Qed.
Lemma running_flat s : sx_ok s -> forall o ts, o + levels s <= running o (flat s ++ ts) /\ running o ts <= running o (flat s ++ ts).
Proof.
  induction s as [t|l IH] using sexp_ind'; intros W o ts.
  - inversion W; subst. cbn. destruct t; try contradiction; split; auto; pose proof (running_ge ts o); lia.
  - inversion W as [|? F]; subst. cbn [flat app]. rewrite <- app_assoc. cbn [app running].
    assert (X : forall l, Forall (fun s => sx_ok s -> forall o ts, o + levels s <= running o (flat s ++ ts) /\ running o ts <= running o (flat s ++ ts)) l -> Forall sx_ok l ->
       forall o ts, o + fold_right (fun x n => Nat.max (levels x) n) 0 l <= running o (flat_map flat l ++ ts) /\ running o ts <= running o (flat_map flat l ++ ts)).
    { clear. induction l as [|x l IHl]; intros H W o ts; cbn [flat_map fold_right app]. { pose proof (running_ge ts o). lia. }
      inversion H as [|? ? Hx Hl]; subst. inversion W as [|? ? Wx Wl]; subst. rewrite <- app_assoc. destruct (Hx Wx o (flat_map flat l ++ ts)) as [A B]. destruct (IHl Hl Wl o ts) as [C D]. lia. }
    destruct (X l IH F (S o) (RPAR :: ts)) as [A B]. cbn [running pred] in A, B. cbn [levels]. lia.
Qed.
Lemma chr_lpar c : chr 40%N c = Ascii.eqb c "("%char.
Proof. destruct c as [[] [] [] [] [] [] [] []]; reflexivity. Qed.
Lemma chr_rpar c : chr 41%N c = Ascii.eqb c ")"%char.
Proof. destruct c as [[] [] [] [] [] [] [] []]; reflexivity. Qed.
Lemma chr_semi c : chr 59%N c = Ascii.eqb c ";"%char.
Proof. destruct c as [[] [] [] [] [] [] [] []]; reflexivity. Qed.
Lemma chr_line c : chr 10%N c = Ascii.eqb c "010"%char.
Proof. destruct c as [[] [] [] [] [] [] [] []]; reflexivity. Qed.
Definition silent (ts : list token) : Prop := Forall (fun t => t <> LPAR /\ t <> RPAR) ts.
Lemma silent_running ts r : silent ts -> forall o, running o (ts ++ r) = running o r.
Proof. induction 1 as [|t ts [A B] F IH]; intros o; cbn [app]; auto. destruct t; try contradiction; cbn [running]; auto. Qed.
Lemma flush_silent q : silent (flush q).
Proof. unfold silent. destruct q; cbn; repeat constructor; try discriminate; unfold kw_token; destruct (memb _ _ _); discriminate. Qed.
Definition in_comment (q : lstate) : bool := match q with QComment => true | _ => false end.
Lemma start_other c : Ascii.eqb c ";"%char = false -> Ascii.eqb c "("%char = false -> Ascii.eqb c ")"%char = false -> silent (snd (start c)) /\ in_comment (fst (start c)) = false.
Proof.
  intros A B C. unfold start. rewrite chr_lpar, chr_rpar, chr_semi, A, B, C. unfold silent.
  repeat match goal with |- context [if ?b then _ else _] => destruct b end; cbn; split; auto; repeat constructor; discriminate.
Qed.
Lemma lstep_other q c : in_comment q = false -> Ascii.eqb c ";"%char = false -> Ascii.eqb c "("%char = false -> Ascii.eqb c ")"%char = false ->
  silent (snd (lstep q c)) /\ in_comment (fst (lstep q c)) = false.
Proof.
  intros Q A B C. pose proof (start_other c A B C) as [S1 S2].
  assert (R : silent (snd (restart q c)) /\ in_comment (fst (restart q c)) = false).
  { unfold restart. pose proof (flush_silent q) as F. destruct (start c) as [q' ts]. cbn in *. split; auto. unfold silent in *. now apply Forall_app. }
  unfold lstep. destruct q; try discriminate; auto; repeat match goal with |- context [if ?b then _ else _] => destruct b end; auto; split; auto; unfold silent; repeat constructor; discriminate.
Qed.
Lemma lstep_special q c : in_comment q = false -> In c [";"; "("; ")"]%char ->
  lstep q c = (fst (start c), flush q ++ snd (start c)).
Proof.
  intros Q I. destruct I as [<-|[<-|[<-|[]]]]; destruct q; try discriminate; reflexivity.
Qed.
Lemma lex_running s : forall q o, running o (lex_from q s) = nested o (in_comment q) s.
Proof.
  induction s as [|c s IH]; intros q o.
  - cbn [lex_from nested]. rewrite <- (app_nil_r (flush q)). now rewrite (silent_running _ _ (flush_silent q)).
  - cbn [lex_from nested]. destruct (in_comment q) eqn:Q.
    { destruct q; try discriminate. cbn [lstep]. rewrite chr_line. destruct (Ascii.eqb c "010"%char); cbn [app negb]; now rewrite IH. }
    assert (Sp : In c [";"; "("; ")"]%char -> running o (let '(q', ts) := lstep q c in ts ++ lex_from q' s) = running o (snd (start c) ++ lex_from (fst (start c)) s)).
    { intros I. rewrite (lstep_special q c Q I), <- app_assoc. apply silent_running, flush_silent. }
    destruct (Ascii.eqb_spec c ";"%char) as [->|N1]. { rewrite Sp by (cbn; auto). cbn. now rewrite IH. }
    destruct (Ascii.eqb_spec c "("%char) as [->|N2]. { rewrite Sp by (cbn; auto). cbn. now rewrite IH. }
    destruct (Ascii.eqb_spec c ")"%char) as [->|N3]. { rewrite Sp by (cbn; auto). cbn. now rewrite IH. }
    clear Sp. apply Ascii.eqb_neq in N1, N2, N3. destruct (lstep_other q c Q N1 N2 N3) as [A B]. destruct (lstep q c) as [q' ts]. cbn in A, B.
    rewrite (silent_running _ _ A), IH, B. reflexivity.
Qed.
Lemma read_ok ts l : read ts = Some l -> Forall sx_ok l.
Proof.
  assert (X : forall ts stack out l, read_from stack out ts = Some l -> Forall (Forall sx_ok) stack -> Forall sx_ok out -> Forall sx_ok l).
  { clear. induction ts as [|t ts IH]; intros stack out l H S O; cbn [read_from] in H.
    - destruct stack; [|discriminate]. inversion H; subst. now apply Forall_rev.
    - destruct t; try (eapply IH; [exact H|exact S|]; constructor; auto; constructor; discriminate).
      + eapply IH; [exact H|constructor; auto|constructor].
      + destruct stack as [|up stack]; [discriminate|]. inversion S; subst. eapply IH; [exact H|auto|]. constructor; auto. constructor. now apply Forall_rev. }
  intros H. eapply X; [exact H|constructor|constructor].
Qed.
Lemma text_levels s l x : read_text s = Some l -> In x l -> levels x <= nesting s.
Proof.
  unfold read_text, nesting. intros H I. pose proof (read_ok _ _ H) as F. apply read_inv in H. change false with (in_comment QStart). rewrite <- (lex_running s QStart 0). fold (lex s). rewrite H.
  clear H. revert F I. induction l as [|y l IH]; intros F I; [destruct I|]; inversion F as [|? ? Fy Fl]; subst; cbn [flat_map]; destruct (running_flat y Fy 0 (flat_map flat l)) as [A B]; destruct I as [->|I]; [lia|].
  specialize (IH Fl I). lia.
Qed.
Lemma action_depth l st st' a n : action_def l st = (st', Ok a) -> within_levels n l ->
  (forall f, a_pre a = Some f -> depth f <= n) /\ (forall f, a_eff a = Some f -> depth f <= n).
Proof.
  intros H W. apply action_def_st in H as (m & ps & body & vs & b & -> & P & B & A).
  unfold mk_action in A. apply bind_Ok in A as (n' & _ & A). apply Ok_inj in A. subst a.
  apply action_body_inv in B as (x & y & -> & X & Y). apply emptyor_pregd_depth in X. apply emptyor_effect_depth in Y. cbn [a_pre a_eff].
  unfold within_levels in W. rewrite Forall_forall in W. assert (Wx := W x ltac:(cbn; tauto)). assert (Wy := W y ltac:(cbn; tauto)).
  split; intros f [= <-]; lia.
Qed.
Lemma derived_depth l st st' x n : derived_def l st = (st', Ok x) -> within_levels n l -> depth (dp_cond x) <= n.
Proof.
  destruct l as [|h [|b [|]]]; try discriminate. cbn [derived_def]. intros H W.
  apply bindM_Ok in H as (st1 & head & H1 & H). apply ret_Ok in H1 as [-> H1]. apply bindM_Ok in H as (st2 & cond & H2 & H).
  unfold reads in *. inversion H2 as [[E1 E2]]. subst st2. inversion H as [[E3 E4]]. subst st'. clear H H2.
  inversion W as [|? ? _ W1]; subst. inversion W1 as [|? ? W2 _]; subst. apply (fun E => gd_depth _ _ _ E n W2) in E2. unfold derived_callback in E4.
  destruct (dict_get String.eqb (fst head) (s_predicates st)) as [def|]; [|discriminate].
  apply bind_Ok in E4 as ([] & _ & E4). apply bind_Ok in E4 as (m & _ & E4). apply bind_Ok in E4 as (p & P & E4). apply bind_Ok in E4 as (c' & C & E4).
  apply (update_depth _ _ _ n) in C; auto. destruct p; try discriminate. apply Ok_inj in E4. now subst.
Qed.
Lemma dedup_In' {A} (eqb : A -> A -> bool) l x : In x (dedup eqb l) -> In x l.
Proof.
  assert (X : forall l seen, In x (dedup_from eqb seen l) -> In x l).
  { clear. induction l as [|y l IH]; cbn; intros seen K; auto. destruct (memb eqb y seen); [eauto|]. destruct K; eauto. }
  apply X.
Qed.
Lemma domain_depth s st st' d f : parse_domain s st = (st', Ok d) -> In f (domain_formulas d) -> depth f + 2 <= nesting s.
Proof.
  intros H I. apply parse_domain_inv in H as (n & l0 & T & H). pose proof (text_levels _ _ _ T (or_introl eq_refl)) as L.
  apply levels_pos in L as (k & -> & L). inversion L as [|? ? _ L1]; subst. inversion L1 as [|? ? _ L2]; subst. clear L L1.
  apply domain_rule_inv in H as (o1 & l1 & st1 & rs & o2 & l2 & st2 & ty & o3 & l3 & st3 & cs & o4 & l4 & st4 & ps & o5 & l5 & fs & st6 & xs
    & S1 & R1 & S2 & R2 & S3 & R3 & S4 & R4 & S5 & R5 & D & _ & K).
  apply section_inv in S1, S2, S3, S4, S5. subst l0 l1 l2 l3 l4.
  apply mk_domain_inv in K as (_ & _ & _ & _ & _ & _ & _ & Ed & _ & Ea & _).
  assert (L5 : within_levels k l5). { unfold within_levels in *. rewrite Forall_forall in *. intros x Ix. apply L2. rewrite !in_app_iff. auto 10. }
  apply mapM_runs in D.
  assert (X : forall x, In x xs -> (forall a, x = inl a -> (forall f, a_pre a = Some f -> depth f + 2 <= S k) /\ (forall f, a_eff a = Some f -> depth f + 2 <= S k))
     /\ (forall p, x = inr p -> depth (dp_cond p) + 2 <= S k)).
  { clear - D L5. induction D as [|st x st1 y l ys st2 E R IH]; intros z Iz; [destruct Iz|]; inversion L5 as [|? ? Lx Ll]; subst; destruct Iz as [->|Iz]; [|now apply IH].
    destruct x as [|[|h body]]; try discriminate. cbn [structure_def] in E. apply levels_pos in Lx as (k' & -> & W). inversion W; subst.
    destruct (is_kw ":action" h); [|destruct (is_kw ":derived" h); [|discriminate]]; apply bindM_Ok in E as (s1 & w & Y & E); apply ret_Ok in E as [-> E]; apply Ok_inj in E; subst z.
    - apply (action_depth _ _ _ _ k') in Y as [Y1 Y2]; auto. split; [|discriminate]. intros a [= <-]. split; intros f Hf; [apply Y1 in Hf|apply Y2 in Hf]; lia.
    - apply (derived_depth _ _ _ _ k') in Y; auto. split; [discriminate|]. intros p [= <-]. lia. }
  unfold domain_formulas in I. rewrite in_app_iff in I. destruct I as [I|I].
  - apply in_flat_map in I as (a & Ia & If). rewrite Ea in Ia. apply dedup_In' in Ia. apply in_flat_map in Ia as ([a'|] & Ia & Ha); [|destruct Ha]. destruct Ha as [->|[]].
    destruct (X _ Ia) as [X1 _]. destruct (X1 _ eq_refl) as [X2 X3]. apply in_app_iff in If. destruct If as [If|If]; [destruct (a_pre a)|destruct (a_eff a)]; cbn in If; try contradiction; destruct If as [->|If]; try contradiction; auto.
  - apply in_map_iff in I as (p & <- & Ip). rewrite Ed in Ip. apply dedup_In' in Ip. apply in_flat_map in Ip as ([|p'] & Ip & Hp); [destruct Hp|]. destruct Hp as [->|[]].
    destruct (X _ Ip) as [_ X1]. now apply X1.
Qed.
Lemma basic_depth s f : basic_function_term s = Ok f -> depth f = 0.
Proof.
  destruct s as [[]|[|[[]|] args]]; try discriminate; cbn [basic_function_term]; intros H.
  - apply mk_numfun_Ok in H. now subst.
  - apply bind_Ok in H as (ns & N & H). apply bind_Ok in H as (ts & M & H). apply mk_numfun_Ok in H. now subst.
Qed.
Lemma atom_depth objs s f : atomic_formula_name objs s = Ok f -> depth f = 0.
Proof.
  destruct s as [[]|[|[[]|] args]]; try discriminate; cbn [atomic_formula_name]; intros H.
  apply bind_Ok in H as (ns & N & H). apply bind_Ok in H as (ts & M & H). apply mk_pred_Ok in H. now subst.
Qed.
Lemma init_depth objs s f : init_el objs s = Ok f -> depth f <= levels s.
Proof.
  destruct s as [[]|[|[[]|] args]]; try discriminate; intros H.
  - cbn [init_el] in H. destruct (String.eqb s "not"); [|apply atom_depth in H; lia]. destruct args as [|x [|]]; try discriminate.
    apply bind_Ok in H as (g & G & H). apply Ok_inj in H. subst. apply atom_depth in G. cbn. lia.
  - cbn [init_el] in H. destruct args as [|x [|[[]|] [|]]]; try discriminate. destruct (String.eqb s "="); [|discriminate].
    apply bind_Ok in H as (g & G & H). apply bind_Ok in H as (v & _ & H). apply Ok_inj in H. subst. apply basic_depth in G.
    pose proof (pair_depth (CFun BEqual) g (FNumVal v) 0 ltac:(lia) ltac:(cbn; lia)). unfold mk_binfun. cbn [levels]. lia.
Qed.
Lemma metric_exp_depth s : forall f, metric_f_exp s = Ok f -> forall n, levels s <= n -> depth f <= n.
Proof.
  induction s as [t|l IH] using sexp_ind'; intros f H n L.
  - destruct t; try discriminate; [change (basic_function_term (SAtom (TWord s)) = Ok f) in H; apply basic_depth in H; lia|]. cbn in H. inversion H; subst. cbn. lia.
  - destruct l as [|[[]|] args]; try discriminate. { change (basic_function_term (SList (SAtom (TWord s) :: args)) = Ok f) in H. apply basic_depth in H. lia. }
    cbn [metric_f_exp] in H. destruct (arith_op s (length args)); [|discriminate]. apply bind_Ok in H as (ops & M & H). apply Ok_inj in H. subst.
    inversion IH as [|? ? _ IH']; subst. apply levels_pos in L as (m & -> & L). inversion L as [|? ? _ La]; subst.
    apply mk_op_depth. eapply mapR_below; [exact M| |exact La]. eapply Forall_impl; [|exact IH']. intros x Hx y E. now apply Hx.
Qed.
Lemma problem_depth s p f : parse_problem s = Ok p -> In f (problem_formulas p) -> depth f + 2 <= nesting s.
Proof.
  intros H I. apply parse_problem_inv in H as (n & dn & l & T & H). pose proof (text_levels _ _ _ T (or_introl eq_refl)) as L.
  apply levels_pos in L as (k & -> & L). inversion L as [|? ? _ L1]; subst. inversion L1 as [|? ? _ L2]; subst. inversion L2 as [|? ? _ L3]; subst. clear L L1 L2.
  apply problem_rule_inv in H as (o1 & o2 & inits & g & o5 & rs & os & init & goal & m & -> & R & O & In0 & G & Me & K).
  unfold mk_problem in K. apply bind_Ok in K as (n' & _ & K). apply bind_Ok in K as (dd & _ & K). apply bind_Ok in K as (rs' & P & K).
  cbv zeta in K. apply bind_Ok in K as ([] & _ & K). apply bind_Ok in K as ([] & _ & K). apply Ok_inj in K. subst p.
  unfold within_levels in L3. rewrite Forall_forall in L3. unfold problem_sections in L3.
  unfold problem_formulas in I. cbn [p_goal p_init p_metric] in I. destruct I as [<-|I]; [|apply in_app_iff in I as [I|I]].
  - assert (W := L3 (section_sx ":goal" [g]) ltac:(rewrite !in_app_iff; cbn; auto)). apply levels_pos in W as (k' & -> & W). inversion W as [|? ? _ W1]; subst. inversion W1 as [|? ? W2 _]; subst.
    pose proof (gd_depth _ _ _ G k' W2). lia.
  - assert (W := L3 (section_sx ":init" inits) ltac:(rewrite !in_app_iff; cbn; auto)). apply levels_pos in W as (k' & -> & W). inversion W as [|? ? _ W1]; subst.
    apply dedup_In' in I. apply mapR_Ok in In0. clear - I In0 W1. induction In0 as [|x y l ys E M IH]; [destruct I|]. inversion W1; subst.
    destruct I as [<-|I]; [|auto]. apply init_depth in E. lia.
  - destruct m as [m|]; [|destruct I]. destruct I as [<-|I]; [|destruct I]. destruct o5 as [l|]; cbn [opt_res] in Me; [|discriminate].
    assert (W := L3 (section_sx ":metric" l) ltac:(rewrite !in_app_iff; cbn; auto 10)). apply levels_pos in W as (k' & -> & W). inversion W as [|? ? _ W1]; subst.
    apply bind_Ok in Me as (r & X & E). apply Ok_inj in E. inversion E; subst r. destruct l as [|[[]|] [|e [|]]]; try discriminate. unfold metric_spec in X.
    destruct (memb String.eqb s0 ["maximize"; "minimize"]); [|discriminate]. apply bind_Ok in X as (f & F & X).
    unfold mk_metric in X. apply bind_Ok in X as ([] & _ & X). apply Ok_inj in X. subst. inversion W1 as [|? ? _ W2]; subst. inversion W2 as [|? ? W3 _]; subst.
    pose proof (metric_exp_depth _ _ F k' W3). cbn [me_expr]. lia.
Qed.
