(** The machine of Lark.v reads nothing else than the productions, when the tables pass a check. *)
From Coq Require Import String Ascii List Bool PArith FMapPositive Arith Lia.
From Verif Require Import Py Names Lexer Spec_Grammar Lark Spec_Lark Py_facts LarkLR_facts.
Import ListNotations.
Open Scope string_scope.
Open Scope list_scope.

Section Check.
  Variable tbl : table.
  Variable dom : PositiveMap.t (list (nt * list string)).
  Variable first : list (nt * (bool * list string)).
  Variable past : PositiveMap.t (list bsym).
  Variable names : PositiveMap.t (list string).
  Variable start : string.

  (** the state after a symbol *)
  Definition tr (q : positive) (x : bsym) : option positive :=
    match x with
    | BT t => match get String.eqb t (row (t_act tbl) q) with Some (Shift q') => Some q' | _ => None end
    | BN A => get nt_eqb A (row (t_goto tbl) q)
    end.
  Fixpoint prefix (l m : list bsym) : bool :=
    match l, m with
    | [], _ => true
    | x :: l', y :: m' => bsym_eqb x y && prefix l' m'
    | _ :: _, [] => false
    end.
  Definition to_ok (q : positive) (x : bsym) (q' : positive) : bool :=
    negb (Pos.eqb q' 1) && prefix (row past q') (x :: row past q).
  (** what the lexer can take for a NAME *)
  Definition lex_names (q : positive) : bool :=
    negb (memb String.eqb "NAME" (accepted (row (t_act tbl) q)))
    || subset (row names q) (map snd (literals (accepted (row (t_act tbl) q)))).
  Definition next_ok (q : positive) (t : string) (no : list (string * string)) : bool :=
    forallb (fun c => negb (String.eqb (fst c) t) || (negb (String.eqb t "$END") && String.eqb (base (snd c)) t && subset (taken (snd c)) (row names q))) no.
  Definition action_ok (q : positive) (ta : string * act) : bool :=
    match snd ta with
    | Shift q' => negb (String.eqb (fst ta) "$END") && to_ok q (BT (fst ta)) q' && lex_names q'
    | Reduce A a =>
        prefix (rev (syms a)) (row past q)
        && forallb (fun B => negb (nt_eqb (er_nt B) A)
                             || existsb (fun p => list_eqb el_eqb (map er_el (fst p)) a && next_ok q (fst ta) (snd p)) (prods_of B))
                   (map fst first)
        && (negb (String.eqb (fst ta) "NAME")
            || forallb (fun r => match get nt_eqb A (snd r) with Some q' => subset (row names q') (row names q) | None => true end)
                       (PositiveMap.elements (t_goto tbl)))
    end.
  Definition goto_ok (q : positive) (Aq : nt * positive) : bool :=
    to_ok q (BN (fst Aq)) (snd Aq)
    && (negb (Pos.eqb (snd Aq) (t_end tbl)) || (Pos.eqb q 1 && nt_eqb (fst Aq) (Rule start))).
  Definition check_sound : bool :=
    forallb (fun r => forallb (action_ok (fst r)) (snd r)) (PositiveMap.elements (t_act tbl))
    && forallb (fun r => forallb (goto_ok (fst r)) (snd r)) (PositiveMap.elements (t_goto tbl))
    && forallb (fun r => forallb (fun af => memb nt_eqb (fst af) (map fst first)) (snd r)) (PositiveMap.elements dom)
    && lex_names 1
    && match row past 1 with [] => true | _ => false end
    && match get nt_eqb (Rule start) (row dom 1) with Some _ => true | None => false end
    && String.eqb (base start) start.
End Check.

Lemma get_eqb_In {K A} (eqb : K -> K -> bool) (H : forall a b, eqb a b = true -> a = b) k (l : list (K * A)) u : get eqb k l = Some u -> In (k, u) l.
Proof.
  induction l as [|[k' u'] l IH]; [discriminate|]. cbn. destruct (eqb k k') eqn:E; [apply H in E as <-; intros E; inversion E; subst; now left|right; auto].
Qed.
Lemma row_In {A} (m : PositiveMap.t (list A)) q x : In x (row m q) -> exists r, In (q, r) (PositiveMap.elements m) /\ In x r /\ r = row m q.
Proof.
  unfold row. intros I. destruct (PositiveMap.find q m) as [r|] eqn:E; [|destruct I]. exists r. split; [now apply PositiveMap.elements_correct|auto].
Qed.
Lemma prefix_app l : forall m, prefix l m = true -> exists r, m = l ++ r.
Proof.
  induction l as [|x l IH]; intros [|y m] H; try discriminate; [now exists []|now exists (y :: m)|]. cbn in H. apply andb_true_iff in H as [H1 H2]. apply bsym_eqb_eq in H1 as <-.
  destruct (IH _ H2) as [r ->]. now exists r.
Qed.
Lemma taken_names t : base t <> "NAME" -> taken t = [].
Proof.
  unfold taken. intros H.
  repeat match goal with |- context [String.eqb t ?x] => destruct (String.eqb_spec t x) as [->|]; [now elim H|] end. reflexivity.
Qed.

Section Sound.
  Context {V St : Type}.
  Variable leaf : string -> V.
  Variable reduce : nt -> list el -> list V -> St -> St * res V.
  Variables (tbl : table) (dom : PositiveMap.t (list (nt * list string))) (first : list (nt * (bool * list string)))
            (past : PositiveMap.t (list bsym)) (names : PositiveMap.t (list string)) (start : string).
  Hypothesis C2 : check_dom tbl dom first names = true.
  Hypothesis C4 : check_sound tbl dom first past names start = true.
  Hypothesis classify_ok : forall acc x t, classify acc x = Some t -> In t acc /\ t <> "$END" /\ lexeme t x /\ (t = "NAME" -> ~ In x (map snd (literals acc))).

  Notation step := (step tbl lex_words leaf reduce).
  Notation tr := (tr tbl).
  Notation evalT := (evalT leaf reduce).

  Lemma c_act q t a : get String.eqb t (row (t_act tbl) q) = Some a -> action_ok tbl first past names q (t, a) = true.
  Proof.
    intros G. apply get_eqb_In in G; [|intros a' b'; apply String.eqb_eq]. apply row_In in G as (r & I1 & I2 & _).
    unfold check_sound in C4. repeat (apply andb_true_iff in C4 as [C4 _]).
    apply (proj1 (forallb_forall _ _) C4) in I1. now apply (proj1 (forallb_forall _ _) I1) in I2.
  Qed.
  Lemma c_goto q A q' : get nt_eqb A (row (t_goto tbl) q) = Some q' -> goto_ok tbl past start q (A, q') = true.
  Proof.
    intros G. apply get_eqb_In in G; [|intros a' b'; apply nt_eqb_eq]. apply row_In in G as (r & I1 & I2 & _).
    unfold check_sound in C4. do 5 (apply andb_true_iff in C4 as [C4 _]). apply andb_true_iff in C4 as [_ C5].
    apply (proj1 (forallb_forall _ _) C5) in I1. now apply (proj1 (forallb_forall _ _) I1) in I2.
  Qed.
  Lemma c_dom q A F : get nt_eqb A (row dom q) = Some F -> In A (map fst first).
  Proof.
    intros G. apply get_eqb_In in G; [|intros a' b'; apply nt_eqb_eq]. apply row_In in G as (r & I1 & I2 & _).
    unfold check_sound in C4. do 4 (apply andb_true_iff in C4 as [C4 _]). apply andb_true_iff in C4 as [_ C5].
    apply (proj1 (forallb_forall _ _) C5) in I1. apply (proj1 (forallb_forall _ _) I1) in I2. cbn [fst] in I2.
    unfold memb in I2. apply existsb_exists in I2 as (B & I & E). apply nt_eqb_eq in E. now subst.
  Qed.
  Lemma c_rest : lex_names tbl names 1 = true /\ row past 1 = [] /\ (exists F, get nt_eqb (Rule start) (row dom 1) = Some F) /\ base start = start.
  Proof.
    unfold check_sound in C4. apply andb_true_iff in C4 as [C4 B]. apply andb_true_iff in C4 as [C4 G]. apply andb_true_iff in C4 as [C4 P]. apply andb_true_iff in C4 as [_ LN].
    split; auto. split; [destruct (row past 1); [auto|discriminate]|]. split; [|now apply String.eqb_eq]. destruct (get nt_eqb (Rule start) (row dom 1)) as [F|]; [eauto|discriminate].
  Qed.
  Lemma tr_ok q x q' : tr q x = Some q' -> to_ok past q x q' = true.
  Proof.
    destruct x as [t|A]; cbn [LarkSound_facts.tr].
    - destruct (get String.eqb t (row (t_act tbl) q)) as [[p|]|] eqn:E; try discriminate. intros H; inversion H; subst. apply c_act in E. cbn in E. apply andb_true_iff in E as [E _]. now apply andb_true_iff in E as [_ E].
    - intros H. apply c_goto in H. unfold goto_ok in H. now apply andb_true_iff in H as [H _].
  Qed.
  Lemma tr_lex q t q' : tr q (BT t) = Some q' -> lex_names tbl names q' = true.
  Proof.
    cbn. destruct (get String.eqb t (row (t_act tbl) q)) as [[p|]|] eqn:E; try discriminate. intros H; inversion H; subst. apply c_act in E. cbn in E. now apply andb_true_iff in E as [_ E].
  Qed.

  (** the entries of the stack, with their symbols, trees and words *)
  Definition entry : Type := bsym * btree * tokens.
  Definition e_sym (e : entry) : bsym := fst (fst e).
  Definition e_tree (e : entry) : btree := snd (fst e).
  Definition e_words (e : entry) : tokens := snd e.
  (** a symbol with its place that can come in a state *)
  Definition can (q : positive) (x : bsym) : Prop :=
    match x with BT t => forall w, In w (taken t) -> In w (row names q) | BN A => get nt_eqb A (row dom q) <> None end.
  Inductive linked : list (positive * V) -> list entry -> string * string -> Prop :=
  | K_nil nx : linked [] [] nx
  | K_cons q v s x t w es nx : linked s es (next w nx) -> tr (top s) x = Some q ->
      (forall x', er_b x' = x -> can (top s) x' -> D word_at x' t w nx) -> linked ((q, v) :: s) ((x, t, w) :: es) nx.
  Lemma linked_length s es nx : linked s es nx -> length s = length es.
  Proof. induction 1; cbn; auto. Qed.
  Lemma linked_past s es nx : linked s es nx -> exists r, map e_sym es = row past (top s) ++ r.
  Proof.
    induction 1 as [nx|q v s x t w es nx K IH E X].
    - destruct c_rest as (_ & P & _). exists []. cbn [top map]. now rewrite P.
    - destruct IH as [r IH]. apply tr_ok in E. unfold to_ok in E. apply andb_true_iff in E as [_ E]. apply prefix_app in E as [r' E].
      cbn [map top e_sym fst]. rewrite IH. exists (r' ++ r). rewrite app_assoc. cbn [top]. unfold e_sym. cbn [fst]. change (x :: row past (top s) ++ r = (row past q ++ r') ++ r). rewrite <- E. reflexivity.
  Qed.
  Lemma linked_one s es nx : linked s es nx -> top s = 1%positive -> s = [].
  Proof.
    intros K H. destruct K as [|q v s x t w es nx K E X]; auto. cbn [top] in H. subst. apply tr_ok in E. unfold to_ok in E. apply andb_true_iff in E as [E _]. now rewrite Pos.eqb_refl in E.
  Qed.

  (** the path of a list of symbols *)
  Fixpoint goes (q : positive) (xs : list bsym) : option positive :=
    match xs with [] => Some q | x :: r => match tr q (er_b x) with Some q' => goes q' r | None => None end end.
  Lemma goes_app xs : forall q ys, goes q (xs ++ ys) = match goes q xs with Some q' => goes q' ys | None => None end.
  Proof. induction xs as [|x xs IH]; intros q ys; cbn; auto. destruct (tr q (er_b x)); auto. Qed.
  Lemma walk_goes xs : forall q ys A a F, walk tbl dom first names q (xs ++ ys) A a F = true ->
    exists q', goes q xs = Some q' /\ walk tbl dom first names q' ys A a F = true.
  Proof.
    induction xs as [|x xs IH]; intros q ys A a F H; [exists q; auto|]. destruct x as [t|B]; cbn [app walk] in H.
    - destruct (get String.eqb (base t) (row (t_act tbl) q)) as [[q'|]|] eqn:E; try discriminate. destruct (firsts first (xs ++ ys) F); [|discriminate].
      apply andb_true_iff in H as [_ H]. apply IH in H as (q1 & G & W). exists q1. split; auto. cbn [goes er_b LarkSound_facts.tr]. now rewrite E.
    - destruct (get nt_eqb B (row dom q)) as [FB|]; [|discriminate]. destruct (get nt_eqb (er_nt B) (row (t_goto tbl) q)) as [q'|] eqn:E; [|discriminate].
      destruct (firsts first (xs ++ ys) F); [|discriminate].
      apply andb_true_iff in H as [_ H]. apply IH in H as (q1 & G & W). exists q1. split; auto. cbn [goes er_b LarkSound_facts.tr]. now rewrite E.
  Qed.
  Lemma walk_can q x r A a F : walk tbl dom first names q (x :: r) A a F = true -> can q x.
  Proof.
    destruct x as [t|B]; cbn [walk can].
    - destruct (get String.eqb (base t) (row (t_act tbl) q)) as [[q'|]|]; try discriminate. destruct (firsts first r F); [|discriminate].
      intros H. apply andb_true_iff in H as [H _]. apply andb_true_iff in H as [H _]. now apply subset_In.
    - destruct (get nt_eqb B (row dom q)); discriminate.
  Qed.

  Lemma Ds_snoc xs ts u x t v nx : Ds word_at xs ts u (next v nx) -> D word_at x t v nx -> Ds word_at (xs ++ [x]) (ts ++ [t]) (u ++ v) nx.
  Proof.
    intros H K. remember (next v nx) as nx' eqn:E. induction H as [|y l t0 ts u1 u2 nx0 Dy Dl IH]; subst.
    - cbn [app]. rewrite <- (app_nil_r v). eapply Ds_cons; [exact K|apply Ds_nil].
    - cbn [app]. rewrite <- app_assoc. eapply Ds_cons; [|auto]. now rewrite next_app.
  Qed.
  (** the entries of a complete production are its derivation *)
  Lemma segment s1 : forall es1 s2 es2 nx xs r A a F, linked (s1 ++ s2) (es1 ++ es2) nx -> length s1 = length es1 ->
    map er_b xs = rev (map e_sym es1) -> walk tbl dom first names (top s2) (xs ++ r) A a F = true ->
    Ds word_at xs (rev (map e_tree es1)) (concat (rev (map e_words es1))) nx /\ goes (top s2) xs = Some (top (s1 ++ s2)).
  Proof.
    induction s1 as [|[q v] s1 IH]; intros [|[[x t] w] es1] s2 es2 nx xs r A a F K L E W; try discriminate.
    - cbn in E. apply map_eq_nil in E as ->. split; [apply Ds_nil|reflexivity].
    - cbn [map rev] in E. change (e_sym (x, t, w)) with x in E. cbn [app] in K. inversion K; subst.
      destruct (rev xs) as [|x' xr] eqn:RX.
      { apply (f_equal (@rev _)) in RX. rewrite rev_involutive in RX. subst xs. cbn in E. now apply app_cons_not_nil in E. }
      apply (f_equal (@rev _)) in RX. rewrite rev_involutive in RX. cbn [rev] in RX. set (xs' := rev xr) in *. subst xs.
      rewrite map_app in E. cbn [map] in E. apply app_inj_tail in E as [E1 E2]. rewrite <- app_assoc in W. cbn [app] in W.
      match goal with KK : linked (s1 ++ s2) (es1 ++ es2) _ |- _ => destruct (IH _ _ _ _ _ _ _ _ _ KK ltac:(cbn in L; congruence) E1 W) as [P Q] end.
      destruct (walk_goes _ _ _ _ _ _ W) as (q' & G & W'). rewrite Q in G. inversion G; subst q'. apply walk_can in W'.
      split.
      + cbn [map rev]. change (e_tree (x, t, w)) with t. change (e_words (x, t, w)) with w. rewrite concat_app. cbn [concat]. rewrite app_nil_r. apply Ds_snoc; auto.
      + rewrite goes_app, Q. cbn [goes]. rewrite E2. match goal with TT : tr _ _ = Some q |- _ => now rewrite TT end.
  Qed.

  Lemma linked_drop s1 : forall es1 s2 es2 nx, linked (s1 ++ s2) (es1 ++ es2) nx -> length s1 = length es1 ->
    linked s2 es2 (next (concat (rev (map e_words es1))) nx).
  Proof.
    induction s1 as [|[p v] s1 IH]; intros [|[[y u] w] es1] s2 es2 nx K L; try discriminate; auto.
    cbn [app] in K. inversion K; subst. cbn [map rev]. rewrite concat_app, next_app. cbn [concat]. rewrite app_nil_r. apply IH; [assumption|cbn in L; congruence].
  Qed.

  (** the word that was read and not consumed *)
  Definition look_ok (q : positive) (l : string * string) : Prop :=
    l = the_end \/ (fst l <> "$END" /\ lexeme (fst l) (snd l) /\ (fst l = "NAME" -> ~ In (snd l) (row names q))).
  Lemma look_word q t x t' : look_ok q (t, x) -> base t' = t -> t <> "$END" -> (forall w, In w (taken t') -> In w (row names q)) -> word_at t' x.
  Proof.
    intros [H|(H1 & H2 & H3)] B NE SUB.
    - inversion H; subst. contradiction.
    - cbn [fst snd] in *. subst t. split; auto. intros I. destruct (String.eqb_spec (base t') "NAME") as [E|E]; [now apply (H3 E), SUB|]. now rewrite (taken_names _ E) in I.
  Qed.

  Definition inv (st0 : St) (ws : list string) (c : @conf V St (list string)) : Prop :=
    exists es, (forall nx, (match c_look c with Some l => nx = l | None => True end) -> linked (c_stack c) es nx) /\
      match c_look c with
      | None => lex_names tbl names (top (c_stack c)) = true
      | Some l => look_ok (top (c_stack c)) l /\ (l = the_end -> c_input c = [])
      end /\
      ws = map snd (concat (rev (map e_words es))) ++ match c_look c with Some (t, x) => if String.eqb t "$END" then [] else [x] | None => [] end ++ c_input c /\
      evalm evalT (rev (map e_tree es)) st0 = (c_st c, Ok (rev (map snd (c_stack c)))).

  Lemma inv_step st0 ws c : inv st0 ws c ->
    match step c with
    | inl c' => inv st0 ws c'
    | inr (st', Ok v, i) => i = [] /\ exists t w, D word_at (BN (Rule start)) t w the_end /\ map snd w = ws /\ evalT t st0 = (st', Ok v)
    | inr (_, Err _, _) => True
    end.
  Proof.
    destruct c as [s look inp st]. intros (es & K & LK & WS & EV). cbn [c_stack c_look c_input c_st] in *. cbn [Lark.step].
    destruct look as [[t x]|].
    - specialize (K (t, x) eq_refl). destruct LK as [LK LE].
      destruct (get String.eqb t (row (t_act tbl) (top s))) as [[q|A a]|] eqn:E; [| |exact Logic.I].
      + (* shift *)
        pose proof (c_act _ _ _ E) as AO.
        assert (TE : t <> "$END").
        { intros ->. now cbn in AO. }
        exists ((BT t, BLeaf x, [(t, x)]) :: es). cbn [c_stack c_look c_input c_st map].
        split; [|split; [|split]].
        * intros nx _. apply K_cons; [exact K|cbn [LarkSound_facts.tr]; now rewrite E|]. intros x' EX CX. destruct x' as [t'|]; [|discriminate]. cbn in EX. inversion EX; subst t.
          apply D_leaf. eapply look_word; eauto.
        * apply (tr_lex (top s) t). cbn [LarkSound_facts.tr]. now rewrite E.
        * cbn [app rev]. change (e_words (BT t, BLeaf x, [(t, x)])) with [(t, x)]. rewrite concat_app, map_app. cbn [concat map snd app]. rewrite WS. destruct (String.eqb_spec t "$END"); [contradiction|]. now rewrite <- app_assoc.
        * cbn [rev]. change (e_tree (BT t, BLeaf x, [(t, x)])) with (BLeaf x). rewrite evalm_app. unfold seqm at 1. rewrite EV. cbn [evalm evalT]. reflexivity.
      + (* reduce *)
        pose proof (c_act _ _ _ E) as AO. cbn [action_ok snd fst] in AO. apply andb_true_iff in AO as [AO A3]. apply andb_true_iff in AO as [A1 A2].
        apply prefix_app in A1 as [r1 A1]. destruct (linked_past _ _ _ K) as [r2 PK]. rewrite A1, <- app_assoc in PK.
        set (m := length (syms a)).
        assert (LES : length es = m + length (r1 ++ r2)) by (rewrite <- (map_length e_sym), PK, app_length, rev_length; reflexivity).
        pose proof (linked_length _ _ _ K) as LS.
        set (s1 := firstn m s). set (s2 := skipn m s). set (es1 := firstn m es). set (es2 := skipn m es).
        assert (SS : s = s1 ++ s2) by (symmetry; apply firstn_skipn). assert (EE : es = es1 ++ es2) by (symmetry; apply firstn_skipn).
        assert (L1 : length s1 = m) by (apply firstn_length_le; lia). assert (L2 : length es1 = m) by (apply firstn_length_le; lia).
        assert (SY : map e_sym es1 = rev (syms a)).
        { rewrite EE, map_app in PK. apply (f_equal (firstn m)) in PK. rewrite !firstn_app in PK.
          rewrite map_length, rev_length, L2, Nat.sub_diag in PK. fold m in PK. rewrite Nat.sub_diag in PK. cbn [firstn] in PK. rewrite !app_nil_r in PK.
          rewrite !firstn_all2 in PK; [exact PK|rewrite rev_length; reflexivity|rewrite map_length; lia]. }
        assert (POP : pop m s [] = (rev (map snd s1), s2)).
        { rewrite SS. rewrite <- L1 at 1. rewrite pop_rev. now rewrite app_nil_r. }
        rewrite POP. destruct (reduce A a (rev (map snd s1)) st) as [st' [v|e]] eqn:RE; [|exact Logic.I].
        destruct (get nt_eqb A (row (t_goto tbl) (top s2))) as [q|] eqn:G; [|exact Logic.I].
        rewrite SS, EE in K.
        assert (DD : forall B, er_nt B = A -> can (top s2) (BN B) -> D word_at (BN B) (BNode A a (rev (map e_tree es1))) (concat (rev (map e_words es1))) (t, x)).
        { intros B EB CB. cbn [can] in CB. destruct (get nt_eqb B (row dom (top s2))) as [F|] eqn:GB; [|contradiction].
          pose proof (c_dom _ _ _ GB) as IB. apply (proj1 (forallb_forall _ _) A2) in IB. apply orb_true_iff in IB as [IB|IB].
          { apply negb_true_iff in IB. rewrite (proj2 (nt_eqb_eq _ _) EB) in IB. discriminate. }
          apply existsb_exists in IB as ([a' no] & IP & IB). cbn [fst snd] in IB. apply andb_true_iff in IB as [IB IN]. apply (list_eqb_eq _ el_eqb_eq) in IB.
          pose proof (dom_walk _ _ _ _ _ _ _ _ C2 GB IP) as WK. cbn [fst snd] in WK.
          rewrite <- (app_nil_r (syms a')) in WK.
          destruct (segment s1 es1 s2 es2 (t, x) (syms a') [] B a' (restrict no F) K ltac:(lia)) as [P Q].
          { rewrite SY, rev_involutive, <- IB. symmetry. apply syms_er. }
          { exact WK. }
          rewrite <- EB, <- IB. eapply D_node; [exact IP| |exact P].
          intros t1 t' I1 I2. cbn [fst snd] in *. subst t1. apply (proj1 (forallb_forall _ _) IN) in I1. cbn [fst snd] in I1. rewrite String.eqb_refl in I1. cbn [negb orb] in I1.
          apply andb_true_iff in I1 as [I1 I2]. apply andb_true_iff in I1 as [I0 I1]. apply String.eqb_eq in I1. eapply look_word; [exact LK|exact I1| |now apply subset_In].
          intros ->. now cbn in I0. }
        assert (K2 : linked s2 es2 (next (concat (rev (map e_words es1))) (t, x))).
        { apply (linked_drop s1 es1); [exact K|lia]. }
        pose proof (c_goto _ _ _ G) as GO. unfold goto_ok in GO. apply andb_true_iff in GO as [_ GO]. cbn [fst snd] in GO.
        assert (EV2 : exists st1, evalm evalT (rev (map e_tree es2)) st0 = (st1, Ok (rev (map snd s2))) /\ evalm evalT (rev (map e_tree es1)) st1 = (st, Ok (rev (map snd s1)))).
        { rewrite EE, SS, !map_app, !rev_app_distr, evalm_app in EV. unfold seqm in EV.
          destruct (evalm evalT (rev (map e_tree es2)) st0) as [st1 [vs1|e1]] eqn:E1; [|discriminate].
          destruct (evalm evalT (rev (map e_tree es1)) st1) as [st2 [vs2|e2]] eqn:E2; [|discriminate]. inversion EV; subst st2.
          pose proof (evalm_length _ _ _ _ _ E1) as N1. rewrite rev_length, map_length in N1.
          assert (N2 : length vs1 = length (rev (map snd s2))).
          { rewrite N1, rev_length, map_length. apply (f_equal (@length _)) in SS. apply (f_equal (@length _)) in EE. rewrite app_length in SS, EE. lia. }
          match goal with HH : vs1 ++ vs2 = _ |- _ => pose proof HH as EQ end.
          assert (vs1 = rev (map snd s2)).
          { apply (f_equal (firstn (length vs1))) in EQ. rewrite firstn_app, firstn_all, Nat.sub_diag in EQ. cbn [firstn] in EQ. rewrite app_nil_r in EQ.
            rewrite N2 in EQ. rewrite firstn_app, firstn_all, Nat.sub_diag in EQ. cbn [firstn] in EQ. now rewrite app_nil_r in EQ. }
          subst vs1. apply app_inv_head in EQ. subst vs2. eauto. }
        destruct EV2 as (st1 & EV1 & EV2).
        assert (ET : evalT (BNode A a (rev (map e_tree es1))) st1 = (st', Ok v)).
        { cbn [LarkLR_facts.evalT]. unfold seqm. now rewrite EV2. }
        destruct (String.eqb t "$END" && Pos.eqb q (t_end tbl)) eqn:FIN.
        * apply andb_true_iff in FIN as [F1 F2]. apply String.eqb_eq in F1 as ->. apply Pos.eqb_eq in F2 as ->. rewrite Pos.eqb_refl in GO. cbn [negb orb] in GO. apply andb_true_iff in GO as [GO1 GO2].
          apply Pos.eqb_eq in GO1. apply nt_eqb_eq in GO2. pose proof (linked_one _ _ _ K2 GO1) as Z. subst A.
          assert (ES2 : es2 = []). { pose proof (linked_length _ _ _ K2) as Z2. rewrite Z in Z2. destruct es2; [auto|discriminate]. }
          assert (XE : (("$END", x) : string * string) = the_end). { destruct LK as [LK|(LK & _)]; [auto|now elim LK]. }
          split; [exact (LE XE)|]. exists (BNode (Rule start) a (rev (map e_tree es1))), (concat (rev (map e_words es1))). split; [|split].
          -- rewrite <- XE. apply DD.
             ++ destruct c_rest as (_ & _ & _ & B). cbn. now rewrite B.
             ++ rewrite GO1. cbn [can]. destruct c_rest as (_ & _ & (F & B) & _). rewrite B. discriminate.
          -- rewrite WS, EE, ES2, app_nil_r, (LE XE). cbn. now rewrite app_nil_r.
          -- rewrite ES2 in EV1. inversion EV1; subst st1. exact ET.
        * exists ((BN A, BNode A a (rev (map e_tree es1)), concat (rev (map e_words es1))) :: es2). cbn [c_stack c_look c_input c_st].
          split; [|split; [|split]].
          -- intros nx ->. apply K_cons; [exact K2|exact G|]. intros [|B] EX CX; [discriminate|]. cbn in EX. inversion EX. rewrite H0. auto.
          -- split; [|exact LE]. destruct LK as [LK|(P1 & P2 & P3)]; [now left|right]. split; auto. split; auto. cbn [fst snd top] in *. intros ->. intros IN. apply (P3 eq_refl).
             cbn [negb] in A3. rewrite String.eqb_refl in A3. cbn [negb orb] in A3. unfold row in G. destruct (PositiveMap.find (top s2) (t_goto tbl)) as [rw|] eqn:FR; [|discriminate].
             apply PositiveMap.elements_correct in FR. apply (proj1 (forallb_forall _ _) A3) in FR. cbn [snd] in FR. rewrite G in FR. now apply (subset_In _ _ FR).
          -- rewrite WS, EE. cbn [map rev]. change (e_words (BN A, _, ?w)) with w. rewrite map_app, rev_app_distr, !concat_app. cbn [concat]. unfold e_words at 4. cbn [snd]. now rewrite app_nil_r.
          -- cbn [map rev]. rewrite evalm_app. unfold seqm. rewrite EV1. unfold e_tree at 1. cbn [fst snd]. rewrite (evalm_one _ _ _ _ _ ET). reflexivity.
    - (* read *)
      destruct inp as [|w inp]; cbn [lex_words].
      + exists es. cbn [c_stack c_look c_input c_st]. split; [|split; [|split]]; auto. split; [now left|auto].
      + destruct (classify (accepted (row (t_act tbl) (top s))) w) as [t|] eqn:CL; [|exact Logic.I]. destruct (classify_ok _ _ _ CL) as (I1 & I2 & I3 & I4).
        exists es. cbn [c_stack c_look c_input c_st]. split; [|split; [|split]]; auto.
        * split; [right; cbn [fst snd]; split; [auto|split; auto]|intros H; inversion H; subst; contradiction].
          intros ->. intros IN. apply (I4 eq_refl). unfold lex_names in LK. apply orb_true_iff in LK as [LK|LK].
          -- apply negb_true_iff in LK. apply memb_string_In in I1. rewrite I1 in LK. discriminate.
          -- now apply (subset_In _ _ LK).
        * destruct (String.eqb_spec t "$END"); [contradiction|]. exact WS.
  Qed.

  Theorem sound ws st0 st' v i : returns tbl lex_words leaf reduce (begin ws st0) (st', Ok v, i) ->
    i = [] /\ exists t w, D word_at (BN (Rule start)) t w the_end /\ map snd w = ws /\ evalT t st0 = (st', Ok v).
  Proof.
    intros [n H]. assert (J : inv st0 ws (begin ws st0)).
    { exists []. cbn. split; [intros; apply K_nil|]. split; [apply c_rest|]. auto. }
    revert H J. generalize (begin ws st0 : @conf V St (list string)). induction n as [|n IH]; intros c H J; [discriminate|]. cbn [run] in H.
    apply inv_step in J. destruct (step c) as [c'|[[s1 r1] i1]]; [eauto|]. inversion H; subst. exact J.
  Qed.
End Sound.
