(** Whatever the machine of Lark.v has read can be finished: when a callback raises an exception, the
    words that were read so far are the beginning of a tree, and the exception is that of the tree. *)
From Coq Require Import String Ascii List Bool PArith FMapPositive Arith Lia.
From Verif Require Import Py Names Lexer Spec_Grammar Lark Spec_Lark Py_facts LarkLR_facts LarkSound_facts LarkCheck_facts.
Import ListNotations.
Open Scope string_scope.
Open Scope list_scope.

(** ** what may follow matters only if it is a NAME *)
Definition free (nx : string * string) : Prop := fst nx <> "NAME".
Lemma conditions : forallb (fun r => forallb (fun c => String.eqb (fst c) "NAME") (snd r)) lark_rules = true.
Proof. vm_compute. reflexivity. Qed.
Lemma free_allowed A a no nx : In (a, no) (prods_of A) -> free nx -> allowed word_at no nx.
Proof.
  intros I F t t' J E. exfalso. apply F. rewrite E. destruct A as [n|e]; cbn [prods_of] in I.
  - apply in_flat_map in I as ([[m e] no'] & R & I). destruct (String.eqb m n); [|destruct I]. apply in_map_iff in I as (a' & Z & _). injection Z as _ <-.
    pose proof (proj1 (forallb_forall _ _) conditions _ R) as C. apply (proj1 (forallb_forall _ _) C) in J. now apply String.eqb_eq in J.
  - apply in_map_iff in I as (a' & Z & _). injection Z as _ <-. destruct J.
Qed.
Lemma D_free_both :
  (forall x t w nx, D word_at x t w nx -> forall nx', free nx' -> D word_at x t w nx') /\
  (forall l ts w nx, Ds word_at l ts w nx -> forall nx', free nx' -> Ds word_at l ts w nx').
Proof.
  apply D_both.
  - intros t w nx W nx' F. now apply D_leaf.
  - intros A a no ts w nx I AL _ IH nx' F. eapply D_node; [exact I|now apply (free_allowed A a)|auto].
  - intros. apply Ds_nil.
  - intros x l t ts u v nx Dx IHx _ IHl nx' F. apply Ds_cons; [|auto]. destruct v as [|y v]; cbn [next] in *; auto.
Qed.
Definition D_free x t w nx := proj1 D_free_both x t w nx.
Definition Ds_free x t w nx := proj2 D_free_both x t w nx.
Lemma end_free : free the_end.
Proof. discriminate. Qed.
Lemma Ds_app xs ts u : forall ys us v nx, Ds word_at xs ts u (next v nx) -> Ds word_at ys us v nx -> Ds word_at (xs ++ ys) (ts ++ us) (u ++ v) nx.
Proof.
  intros ys us v nx H K. remember (next v nx) as nx' eqn:E. induction H as [|y l t0 ts u1 u2 nx0 Dy Dl IH]; subst; [exact K|].
  cbn [app]. rewrite <- app_assoc. apply Ds_cons; [|auto]. now rewrite next_app.
Qed.

(** ** words that finish a production *)
Definition token_for (t : string) : option string :=
  match literal (base t) with
  | Some w => Some w
  | None => if String.eqb (base t) "NAME" then Some "x" else if String.eqb (base t) "NUMBER" then Some "0" else None
  end.
Lemma token_for_ok t w : token_for t = Some w -> word_at t w.
Proof.
  unfold token_for. destruct (literal (base t)) as [u|] eqn:L.
  - intros H. injection H as <-. split; [apply lexeme_cases; auto|]. rewrite taken_names; [auto|]. now apply literal_not_name in L.
  - destruct (String.eqb_spec (base t) "NAME") as [E|E].
    + intros H. injection H as <-. split; [apply lexeme_cases; right; left; split; [exact E|reflexivity]|]. unfold taken.
      repeat match goal with |- context [String.eqb t ?x] => destruct (String.eqb t x); [vm_compute; intuition discriminate|] end. auto.
    + destruct (String.eqb_spec (base t) "NUMBER") as [E2|]; [|discriminate]. intros H. injection H as <-.
      split; [apply lexeme_cases; right; right; split; [exact E2|reflexivity]|]. now rewrite taken_names.
Qed.
Definition starts_name (w : tokens) : bool := match w with (t, _) :: _ => String.eqb t "NAME" | [] => false end.
Lemma starts_free w nx : starts_name w = false -> free nx -> free (next w nx).
Proof. destruct w as [|[t x] w]; cbn; [auto|]. intros H _. now apply String.eqb_neq. Qed.
Fixpoint fill (sm : list (nt * tokens)) (xs : list bsym) : option tokens :=
  match xs with
  | [] => Some []
  | BT t :: r => match token_for t, fill sm r with Some x, Some w => Some ((base t, x) :: w) | _, _ => None end
  | BN A :: r => match get nt_eqb A sm, fill sm r with
                 | Some u, Some w => if starts_name w then None else Some (u ++ w)
                 | _, _ => None
                 end
  end.
Fixpoint samples_of (l : list (nt * nat)) (sm : list (nt * tokens)) : list (nt * tokens) :=
  match l with
  | [] => sm
  | (A, k) :: r => match nth_error (prods_of A) k with
                   | Some (a, _) => match fill sm (syms a) with Some w => samples_of r ((A, w) :: sm) | None => samples_of r sm end
                   | None => samples_of r sm
                   end
  end.
Definition good (sm : list (nt * tokens)) : Prop := forall A w, In (A, w) sm -> exists t, D word_at (BN A) t w the_end.
Lemma fill_ok sm xs : good sm -> forall w, fill sm xs = Some w -> exists ts, Ds word_at xs ts w the_end.
Proof.
  intros G. induction xs as [|[t|A] xs IH]; intros w H; cbn [fill] in H.
  - injection H as <-. exists []. apply Ds_nil.
  - destruct (token_for t) as [x|] eqn:T; [|discriminate]. destruct (fill sm xs) as [w'|]; [|discriminate]. injection H as <-. destruct (IH _ eq_refl) as [ts K].
    exists (BLeaf x :: ts). apply (Ds_cons word_at (BT t) xs (BLeaf x) ts [(base t, x)] w' the_end); [|exact K]. apply D_leaf. now apply token_for_ok.
  - destruct (get nt_eqb A sm) as [u|] eqn:T; [|discriminate]. destruct (fill sm xs) as [w'|]; [|discriminate]. destruct (starts_name w') eqn:SN; [discriminate|]. injection H as <-.
    destruct (IH _ eq_refl) as [ts K]. apply get_eqb_In in T; [|intros a b; apply nt_eqb_eq]. apply G in T as [t T]. exists (t :: ts). apply Ds_cons; [|exact K].
    apply (D_free _ _ _ _ T). apply starts_free; [exact SN|exact end_free].
Qed.
Lemma samples_ok l : forall sm, good sm -> good (samples_of l sm).
Proof.
  induction l as [|[A k] l IH]; intros sm G; cbn [samples_of]; [exact G|]. destruct (nth_error (prods_of A) k) as [[a no]|] eqn:N; [|auto]. destruct (fill sm (syms a)) as [w|] eqn:F; [|auto].
  apply IH. intros B u [E|I]; [|auto]. injection E as <- <-. destruct (fill_ok _ _ G _ F) as [ts K]. apply nth_error_In in N.
  eexists. eapply D_node; [exact N|eapply free_allowed; [exact N|exact end_free]|exact K].
Qed.

(** ** the check *)
Section Check.
  Variable tbl : table.
  Variable dom : PositiveMap.t (list (nt * list string)).
  Variable past : PositiveMap.t (list bsym).
  Variable start : string.
  Variable before : PositiveMap.t (list positive).
  Variable context : PositiveMap.t (list (nt * (nat * nat * list (nt * nat)))).
  Variable sm : list (nt * tokens).

  Definition add (q : positive) (l : list positive) : list positive := if memb Pos.eqb q l then l else q :: l.
  Fixpoint back (n : nat) (qs : list positive) : list positive :=
    match n with 0 => qs | S m => back m (fold_right add [] (flat_map (row before) qs)) end.
  Definition rk (q : positive) (B : nt) : nat := match get nt_eqb B (row context q) with Some (_, d, _) => d | None => 0 end.
  (** the [i]-th symbol of the production is [B] *)
  Definition alt_ok (q : positive) (B : nt) (i d : nat) (Ck : nt * nat) : bool :=
    match nth_error (prods_of (fst Ck)) (snd Ck) with
    | Some (a, _) =>
        match nth_error (syms a) i with Some (BN B') => nt_eqb B' B | _ => false end
        && prefix (rev (map er_b (firstn i (syms a)))) (row past q)
        && match fill sm (skipn (S i) (syms a)) with Some w => negb (starts_name w) | None => false end
        && (negb (Nat.eqb i 0) || Nat.ltb (rk q (fst Ck)) d)
    | None => false
    end.
  Definition has_rule (q : positive) (C : nt) : bool := match get nt_eqb C (row dom q) with Some _ => true | None => false end.
  Definition context_ok (q : positive) (B : nt) : bool :=
    (Pos.eqb q 1 && nt_eqb B (Rule start))
    || match get nt_eqb B (row context q) with
       | Some (i, d, l) => let good := filter (alt_ok q B i d) l in negb (Nat.eqb (length good) 0) && forallb (fun q' => existsb (fun Ck => has_rule q' (fst Ck)) good) (back i [q])
       | None => false
       end.
  Definition add_reduction (x : nt * nat) (l : list (nt * nat)) : list (nt * nat) :=
    if existsb (fun y => nt_eqb (fst x) (fst y) && Nat.eqb (snd x) (snd y)) l then l else x :: l.
  Fixpoint reductions (r : list (string * act)) : list (nt * nat) :=
    match r with
    | [] => []
    | (_, Shift _) :: r' => reductions r'
    | (_, Reduce A a) :: r' => add_reduction (A, length (syms a)) (reductions r')
    end.
  Definition reduction_ok (q : positive) (An : nt * nat) : bool :=
    forallb (fun q' => existsb (fun af => nt_eqb (er_nt (fst af)) (fst An)) (row dom q')) (back (snd An) [q]).
  Definition check_finish : bool :=
    forallb (fun r => forallb (fun ta => match snd ta with Shift q' => memb Pos.eqb (fst r) (row before q') | Reduce _ _ => true end) (snd r)) (PositiveMap.elements (t_act tbl))
    && forallb (fun r => forallb (fun Aq => memb Pos.eqb (fst r) (row before (snd Aq))) (snd r)) (PositiveMap.elements (t_goto tbl))
    && forallb (fun r => forallb (reduction_ok (fst r)) (reductions (snd r))) (PositiveMap.elements (t_act tbl))
    && forallb (fun r => forallb (fun af => context_ok (fst r) (fst af)) (snd r)) (PositiveMap.elements dom).
End Check.

Lemma memb_pos q l : memb Pos.eqb q l = true <-> In q l.
Proof.
  unfold memb. rewrite existsb_exists. split.
  - intros (x & I & E). apply Pos.eqb_eq in E. now subst.
  - intros I. exists q. split; [exact I|apply Pos.eqb_refl].
Qed.
Lemma add_all l : forall x, In x l -> In x (fold_right add [] l).
Proof.
  induction l as [|y l IH]; intros x I; [destruct I|]. cbn [fold_right]. unfold add at 1. destruct (memb Pos.eqb y (fold_right add [] l)) eqn:M.
  - destruct I as [->|I]; [now apply memb_pos|auto].
  - destruct I as [->|I]; [now left|right; auto].
Qed.
Lemma reductions_In r t A a : In (t, Reduce A a) r -> In (A, length (syms a)) (reductions r).
Proof.
  induction r as [|[t' [q|B b]] r IH]; intros I; [destruct I| |]; cbn [reductions].
  - destruct I as [E|I]; [discriminate|exact (IH I)].
  - unfold add_reduction. destruct (existsb _ (reductions r)) eqn:X.
    + destruct I as [E|I]; [|exact (IH I)]. injection E as -> -> ->. apply existsb_exists in X as ([C n] & J & E). cbn [fst snd] in E. apply andb_true_iff in E as [E1 E2].
      apply nt_eqb_eq in E1. apply Nat.eqb_eq in E2. subst C n. exact J.
    + destruct I as [E|I]; [injection E as -> -> ->; now left|right; exact (IH I)].
Qed.

(** ** every tree that has begun can be finished *)
Section Finish.
  Context {V St : Type}.
  Variable leaf : string -> V.
  Variable reduce : nt -> list el -> list V -> St -> St * res V.
  Variables (tbl : table) (dom : PositiveMap.t (list (nt * list string))) (first : list (nt * (bool * list string)))
            (past : PositiveMap.t (list bsym)) (names : PositiveMap.t (list string)) (start : string)
            (before : PositiveMap.t (list positive)) (context : PositiveMap.t (list (nt * (nat * nat * list (nt * nat))))) (sm : list (nt * tokens)).
  Hypothesis C2 : check_dom tbl dom first names = true.
  Hypothesis C4 : check_sound tbl dom first past names start = true.
  Hypothesis C5 : check_finish tbl dom past start before context sm = true.
  Hypothesis SM : good sm.

  Notation linked := (@linked V tbl dom names).
  Notation tr := (tr tbl).
  Notation evalT := (evalT leaf reduce).
  Notation back := (back before).

  Lemma linked_free s es nx : linked s es nx -> forall nx', free nx' -> linked s es nx'.
  Proof.
    induction 1 as [nx|q v s x t w es nx K IH E X]; intros nx' F; [constructor|]. constructor; [|exact E|].
    - destruct w as [|y w]; cbn [next] in *; auto.
    - intros x' EX CX. apply (D_free _ _ _ _ (X x' EX CX) _ F).
  Qed.
  Lemma tr_before q x q' : tr q x = Some q' -> In q (row before q').
  Proof.
    unfold check_finish in C5. apply andb_true_iff in C5 as [C _]. apply andb_true_iff in C as [C _]. apply andb_true_iff in C as [A B]. destruct x as [t|N]; cbn [LarkSound_facts.tr].
    - destruct (get String.eqb t (row (t_act tbl) q)) as [[p|]|] eqn:G; try discriminate. intros H; injection H as ->. apply get_eqb_In in G; [|intros a' b'; apply String.eqb_eq].
      apply row_In in G as (r & I1 & I2 & _). apply (proj1 (forallb_forall _ _) A) in I1. apply (proj1 (forallb_forall _ _) I1) in I2. cbn [fst snd] in I2. now apply memb_pos.
    - intros G. apply get_eqb_In in G; [|intros a' b'; apply nt_eqb_eq]. apply row_In in G as (r & I1 & I2 & _). apply (proj1 (forallb_forall _ _) B) in I1.
      apply (proj1 (forallb_forall _ _) I1) in I2. cbn [fst snd] in I2. now apply memb_pos.
  Qed.
  Lemma linked_back s1 : forall es1 s2 es2 nx qs, linked (s1 ++ s2) (es1 ++ es2) nx -> length s1 = length es1 -> In (top (s1 ++ s2)) qs -> In (top s2) (back (length s1) qs).
  Proof.
    induction s1 as [|[q v] s1 IH]; intros [|[[x t] w] es1] s2 es2 nx qs K L I; try discriminate; [exact I|]. cbn [app length LarkFinish_facts.back] in *. inversion K; subst.
    eapply IH; [eassumption|congruence|]. apply add_all, in_flat_map. exists q. split; [exact I|]. eapply tr_before; eassumption.
  Qed.
  Lemma finish_reduction q A n q' : (exists t a, In (t, Reduce A a) (row (t_act tbl) q) /\ n = length (syms a)) -> In q' (back n [q]) -> exists B, er_nt B = A /\ get nt_eqb B (row dom q') <> None.
  Proof.
    intros (t & a & I & ->) J. unfold check_finish in C5. apply andb_true_iff in C5 as [C _]. apply andb_true_iff in C as [_ C].
    apply row_In in I as (r & I1 & I2 & ER). apply (proj1 (forallb_forall _ _) C) in I1. cbn [fst snd] in I1. apply reductions_In in I2. apply (proj1 (forallb_forall _ _) I1) in I2.
    unfold reduction_ok in I2. cbn [fst snd] in I2. apply (proj1 (forallb_forall _ _) I2) in J. apply existsb_exists in J as ([B F] & J & E). cbn [fst] in E. apply nt_eqb_eq in E.
    exists B. split; [exact E|]. clear -J. induction (row dom q') as [|[C G] l IH]; [destruct J|]. cbn [get]. destruct (nt_eqb B C) eqn:X; [discriminate|]. destruct J as [J|J]; [|auto].
    injection J as -> ->. rewrite (proj2 (nt_eqb_eq B B) eq_refl) in X. discriminate.
  Qed.

  Lemma eval_fold l1 l2 t ts A a st st' e : evalm evalT ((l1 ++ l2) ++ [t]) st = (st', Err e) -> evalm evalT (l1 ++ [BNode A a (l2 ++ t :: ts)]) st = (st', Err e).
  Proof.
    intros H. rewrite <- app_assoc in H. rewrite evalm_app in H |- *. unfold seqm at 1 in H. unfold seqm at 1. destruct (evalm evalT l1 st) as [st1 [vs|e1]]; [|exact H].
    unfold seqm at 1 in H. rewrite evalm_app in H. unfold seqm in H. cbn [evalm LarkLR_facts.evalT]. unfold seqm. rewrite evalm_app. unfold seqm.
    destruct (evalm evalT l2 st1) as [st2 [us|e2]]; [|injection H as -> ->; reflexivity].
    cbn [evalm] in H |- *. unfold seqm in H |- *. destruct (evalT t st2) as [st3 [v|e3]]; [discriminate|]. injection H as -> ->. reflexivity.
  Qed.

  Lemma finish n : forall m s es t w B st st' e, length es <= n -> rk context (top s) B <= m -> linked s es (next w the_end) -> get nt_eqb B (row dom (top s)) <> None ->
    D word_at (BN B) t w the_end -> evalm evalT (rev (map e_tree es) ++ [t]) st = (st', Err e) ->
    exists T more, D word_at (BN (Rule start)) T (concat (rev (map e_words es)) ++ w ++ more) the_end /\ evalT T st = (st', Err e).
  Proof.
    induction n as [n IHn] using (well_founded_induction lt_wf). induction m as [m IHm] using (well_founded_induction lt_wf). intros s es t w B st st' e LN LM K GB DB EV.
    assert (CO : context_ok dom past start before context sm (top s) B = true).
    { unfold check_finish in C5. apply andb_true_iff in C5 as [_ C]. destruct (get nt_eqb B (row dom (top s))) as [F|] eqn:G; [|contradiction].
      apply get_eqb_In in G; [|intros a' b'; apply nt_eqb_eq]. apply row_In in G as (r & I1 & I2 & _). apply (proj1 (forallb_forall _ _) C) in I1. exact (proj1 (forallb_forall _ _) I1 _ I2). }
    unfold context_ok in CO. apply orb_true_iff in CO as [CO|CO].
    - apply andb_true_iff in CO as [Q1 Q2]. apply Pos.eqb_eq in Q1. apply nt_eqb_eq in Q2. subst B. pose proof (linked_one tbl dom first past names start C4 _ _ _ K Q1) as ->.
      pose proof (linked_length _ _ _ _ _ _ K) as L0. destruct es; [|discriminate]. exists t, []. cbn [map rev concat app] in *. rewrite app_nil_r. split; [exact DB|].
      cbn [evalm] in EV. unfold seqm in EV. destruct (evalT t st) as [st1 [v|e1]]; [discriminate|injection EV as -> ->; reflexivity].
    - destruct (get nt_eqb B (row context (top s))) as [[[i d] l]|] eqn:GC; [|discriminate].
      assert (RK : rk context (top s) B = d) by (unfold rk; now rewrite GC).
      (* the entries *)
      assert (PRE : forall C k, In (C, k) (filter (alt_ok past context sm (top s) B i d) l) -> exists a no xs ys ws, In (a, no) (prods_of C) /\ syms a = xs ++ BN B :: ys /\ length xs = i /\
                 prefix (rev (map er_b xs)) (row past (top s)) = true /\ fill sm ys = Some ws /\ starts_name ws = false /\ (i = 0 -> rk context (top s) C < d)).
      { intros C k I. apply filter_In in I as [_ I]. unfold alt_ok in I. cbn [fst snd] in I. destruct (nth_error (prods_of C) k) as [[a no]|] eqn:N; [|discriminate].
        apply andb_true_iff in I as [I R]. apply andb_true_iff in I as [I F]. apply andb_true_iff in I as [I P].
        destruct (nth_error (syms a) i) as [[|B']|] eqn:NS; try discriminate. apply nt_eqb_eq in I as ->. destruct (fill sm (skipn (S i) (syms a))) as [ws|] eqn:FL; [|discriminate].
        exists a, no, (firstn i (syms a)), (skipn (S i) (syms a)), ws. split; [now apply nth_error_In in N|]. split; [|split; [|split; [exact P|split; [exact FL|split]]]].
        - apply nth_error_split in NS as (u & v & E & L). rewrite E, <- L. rewrite firstn_app, Nat.sub_diag, firstn_all, app_nil_r. f_equal.
          rewrite skipn_app, skipn_all2 by lia. replace (S (length u) - length u) with 1 by lia. reflexivity.
        - apply firstn_length_le. apply Nat.lt_le_incl, nth_error_Some. now rewrite NS.
        - now apply negb_true_iff.
        - intros ->. cbn [negb Nat.eqb orb] in R. now apply Nat.ltb_lt. }
      pose proof (linked_length _ _ _ _ _ _ K) as LS. destruct (linked_past tbl dom first past names start C4 _ _ _ K) as [r2 PK].
      apply andb_true_iff in CO as [NE CO].
      assert (LI : i <= length es).
      { destruct (filter (alt_ok past context sm (top s) B i d) l) as [|[C k] l'] eqn:FL; [discriminate|].
        destruct (PRE C k) as (a & no & xs & ys & ws & _ & _ & LX & P & _); [now left|]. apply prefix_app in P as [r1 P]. rewrite P, <- app_assoc in PK.
        apply (f_equal (@length _)) in PK. rewrite map_length, app_length, rev_length, map_length in PK. lia. }
      set (s1 := firstn i s). set (s2 := skipn i s). set (es1 := firstn i es). set (es2 := skipn i es).
      assert (SS : s = s1 ++ s2) by (symmetry; apply firstn_skipn). assert (EE : es = es1 ++ es2) by (symmetry; apply firstn_skipn).
      assert (L1 : length s1 = i) by (apply firstn_length_le; lia). assert (L2 : length es1 = i) by (apply firstn_length_le; lia).
      assert (BK : In (top s2) (back i [top s])).
      { rewrite <- L1. apply (linked_back s1 es1 s2 es2 (next w the_end)); [rewrite <- SS, <- EE; exact K|lia|rewrite <- SS; now left]. }
      apply (proj1 (forallb_forall _ _) CO) in BK. apply existsb_exists in BK as ([C k] & IC & HC). cbn [fst] in HC. unfold has_rule in HC.
      destruct (get nt_eqb C (row dom (top s2))) as [FC|] eqn:GCC; [|discriminate].
      destruct (PRE C k IC) as (a & no & xs & ys & ws & IP & SY & LX & PX & FL & SN & R0). clear PRE CO.
      apply prefix_app in PX as [r1 PX]. rewrite PX, <- app_assoc, EE, map_app in PK.
      assert (SE : map er_b xs = rev (map e_sym es1)).
      { apply (f_equal (firstn i)) in PK. rewrite !firstn_app in PK. rewrite map_length, rev_length, map_length, L2, LX, Nat.sub_diag in PK. cbn [firstn] in PK. rewrite !app_nil_r in PK.
        rewrite !firstn_all2 in PK; [rewrite PK; symmetry; apply rev_involutive|rewrite rev_length, map_length; lia|rewrite map_length; lia]. }
      destruct (fill_ok _ _ SM _ FL) as [ts DY].
      pose proof (starts_free _ _ SN end_free) as FW.
      assert (K' : linked (s1 ++ s2) (es1 ++ es2) (next (w ++ ws) the_end)).
      { rewrite <- SS, <- EE, next_app. destruct w as [|y w]; cbn [next] in *; [apply (linked_free _ _ _ K _ FW)|exact K]. }
      pose proof (dom_walk _ _ _ _ _ _ _ _ C2 GCC IP) as WK. cbn [fst snd] in WK. rewrite SY in WK.
      destruct (segment tbl dom first names s1 es1 s2 es2 _ xs (BN B :: ys) C a _ K' ltac:(lia) SE WK) as [DX _].
      assert (DC : D word_at (BN C) (BNode (er_nt C) (map er_el a) (rev (map e_tree es1) ++ t :: ts)) (concat (rev (map e_words es1)) ++ w ++ ws) the_end).
      { eapply D_node; [exact IP|apply (free_allowed _ _ _ _ IP end_free)|]. rewrite SY. apply Ds_app; [exact DX|]. apply Ds_cons; [|exact DY]. apply (D_free _ _ _ _ DB _ FW). }
      pose proof (linked_drop tbl dom names s1 es1 s2 es2 _ K' ltac:(lia)) as K2. rewrite <- next_app in K2.
      assert (EV2 : evalm evalT (rev (map e_tree es2) ++ [BNode (er_nt C) (map er_el a) (rev (map e_tree es1) ++ t :: ts)]) st = (st', Err e)).
      { apply eval_fold. rewrite EE, map_app, rev_app_distr in EV. exact EV. }
      assert (RES : exists T more, D word_at (BN (Rule start)) T (concat (rev (map e_words es2)) ++ (concat (rev (map e_words es1)) ++ w ++ ws) ++ more) the_end /\ evalT T st = (st', Err e)).
      { destruct (Nat.eq_dec i 0) as [Z|NZ].
        - assert (s2 = s) as E2 by (unfold s2; now rewrite Z). assert (length es2 <= n) by (unfold es2; rewrite skipn_length; lia).
          eapply (IHm (rk context (top s2) C)); [rewrite E2; specialize (R0 Z); lia| |reflexivity|exact K2|rewrite GCC; discriminate|exact DC|exact EV2]. assumption.
        - eapply (IHn (length es2)); [unfold es2; rewrite skipn_length; lia|reflexivity|reflexivity|exact K2|rewrite GCC; discriminate|exact DC|exact EV2]. }
      destruct RES as (T & more & DT & ET). exists T, (ws ++ more). split; [|exact ET].
      rewrite EE, map_app, rev_app_distr, concat_app. repeat rewrite <- app_assoc in DT. repeat rewrite <- app_assoc. exact DT.
  Qed.

  Lemma pop_firstn n (s : list (positive * V)) : n <= length s -> pop n s [] = (rev (map snd (firstn n s)), skipn n s).
  Proof.
    intros L. rewrite <- (firstn_skipn n s) at 1. rewrite <- (firstn_length_le s L) at 1. rewrite pop_rev. now rewrite app_nil_r.
  Qed.
  Lemma fail_step st0 ws c st' e i : inv leaf reduce tbl dom names st0 ws c -> step tbl lex_words leaf reduce c = inr (st', Err e, i) ->
    e = LarkSyntaxError \/
    exists T w more l, D word_at (BN (Rule start)) T (w ++ more) the_end /\ evalT T st0 = (st', Err e) /\ ws = map snd w ++ l ++ i /\ length l <= 1.
  Proof.
    destruct c as [s look inp st]. intros (es & K & LK & WS & EV) H. cbn [c_stack c_look c_input c_st] in *. cbn [Lark.step] in H.
    destruct look as [[t x]|].
    - specialize (K (t, x) eq_refl). destruct LK as [LK LE].
      destruct (get String.eqb t (row (t_act tbl) (top s))) as [[q|A a]|] eqn:E; [discriminate| |injection H as _ <- _; now left].
      pose proof (c_act _ _ _ _ _ _ C4 _ _ _ E) as AO. cbn [action_ok snd fst] in AO. apply andb_true_iff in AO as [AO _]. apply andb_true_iff in AO as [A1 A2].
      apply prefix_app in A1 as [r1 A1]. destruct (linked_past tbl dom first past names start C4 _ _ _ K) as [r2 PK]. rewrite A1, <- app_assoc in PK.
      set (m := length (syms a)) in *.
      assert (LES : length es = m + length (r1 ++ r2)) by (rewrite <- (map_length e_sym), PK, app_length, rev_length; reflexivity).
      pose proof (linked_length _ _ _ _ _ _ K) as LS. rewrite pop_firstn in H by lia.
      set (s1 := firstn m s) in *. set (s2 := skipn m s) in *. set (es1 := firstn m es). set (es2 := skipn m es).
      assert (SS : s = s1 ++ s2) by (symmetry; apply firstn_skipn). assert (EE : es = es1 ++ es2) by (symmetry; apply firstn_skipn).
      assert (L1 : length s1 = m) by (apply firstn_length_le; lia). assert (L2 : length es1 = m) by (apply firstn_length_le; lia).
      assert (SY : map e_sym es1 = rev (syms a)).
      { rewrite EE, map_app in PK. apply (f_equal (firstn m)) in PK. rewrite !firstn_app in PK.
        rewrite map_length, rev_length, L2, Nat.sub_diag in PK. fold m in PK. rewrite Nat.sub_diag in PK. cbn [firstn] in PK. rewrite !app_nil_r in PK.
        rewrite !firstn_all2 in PK; [exact PK|rewrite rev_length; reflexivity|rewrite map_length; lia]. }
      assert (EV2 : exists st1, evalm evalT (rev (map e_tree es2)) st0 = (st1, Ok (rev (map snd s2))) /\ evalm evalT (rev (map e_tree es1)) st1 = (st, Ok (rev (map snd s1)))).
      { rewrite EE, SS, !map_app, !rev_app_distr, evalm_app in EV. unfold seqm in EV.
        destruct (evalm evalT (rev (map e_tree es2)) st0) as [st1 [vs1|e1]] eqn:E1; [|discriminate].
        destruct (evalm evalT (rev (map e_tree es1)) st1) as [st2 [vs2|e2]] eqn:E2; [|discriminate]. inversion EV; subst st2.
        pose proof (evalm_length _ _ _ _ _ E1) as N1. rewrite rev_length, map_length in N1.
        assert (N2 : length vs1 = length (rev (map snd s2))).
        { rewrite N1, rev_length, map_length. apply (f_equal (@length _)) in SS. apply (f_equal (@length _)) in EE. rewrite app_length in SS, EE. lia. }
        match goal with HH : vs1 ++ vs2 = _ |- _ => pose proof HH as EQ end.
        assert (vs1 = rev (map snd s2)).
        { apply (f_equal (firstn (length vs1))) in EQ. rewrite firstn_app, firstn_all, Nat.sub_diag in EQ. cbn [firstn] in EQ. rewrite app_nil_r in EQ.
          rewrite N2 in EQ. rewrite firstn_app, firstn_all, Nat.sub_diag in EQ. cbn [firstn] in EQ. now rewrite app_nil_r in EQ. }
        subst vs1. apply app_inv_head in EQ. subst vs2. eauto. }
      destruct EV2 as (st1 & EV1 & EV2).
      destruct (reduce A a (rev (map snd s1)) st) as [st2 [v|e2]] eqn:RE.
      { destruct (get nt_eqb A (row (t_goto tbl) (top s2))) as [q|]; [|injection H as _ <- _; now left]. destruct (String.eqb t "$END" && Pos.eqb q (t_end tbl)); discriminate. }
      injection H as -> -> <-. right.
      assert (BK : In (top s2) (back m [top s])).
      { rewrite <- L1. apply (linked_back s1 es1 s2 es2 (t, x)); [rewrite <- SS, <- EE; exact K|lia|rewrite <- SS; now left]. }
      destruct (finish_reduction (top s) A m (top s2)) as (B & EB & GB); [exists t, a; split; [|reflexivity]; apply (get_eqb_In String.eqb (fun a b => proj1 (String.eqb_eq a b))); exact E|exact BK|].
      set (W := concat (rev (map e_words es1))). set (N := BNode A a (rev (map e_tree es1))).
      rewrite SS, EE in K.
      assert (DD : D word_at (BN B) N W (t, x)).
      { destruct (get nt_eqb B (row dom (top s2))) as [F|] eqn:GBF; [|contradiction].
        pose proof (c_dom _ _ _ _ _ _ C4 _ _ _ GBF) as IB. apply (proj1 (forallb_forall _ _) A2) in IB. apply orb_true_iff in IB as [IB|IB].
        { apply negb_true_iff in IB. rewrite (proj2 (nt_eqb_eq _ _) EB) in IB. discriminate. }
        apply existsb_exists in IB as ([a' no] & IP & IB). cbn [fst snd] in IB. apply andb_true_iff in IB as [IB IN]. apply (list_eqb_eq _ el_eqb_eq) in IB.
        pose proof (dom_walk _ _ _ _ _ _ _ _ C2 GBF IP) as WK. cbn [fst snd] in WK.
        rewrite <- (app_nil_r (syms a')) in WK.
        destruct (segment tbl dom first names s1 es1 s2 es2 (t, x) (syms a') [] B a' (restrict no F) K ltac:(lia)) as [P Q].
        { rewrite SY, rev_involutive, <- IB. symmetry. apply syms_er. }
        { exact WK. }
        unfold N. rewrite <- EB, <- IB. eapply D_node; [exact IP| |exact P].
        intros t1 t' I1 I2. cbn [fst snd] in *. subst t1. apply (proj1 (forallb_forall _ _) IN) in I1. cbn [fst snd] in I1. rewrite String.eqb_refl in I1. cbn [negb orb] in I1.
        apply andb_true_iff in I1 as [I1 I2]. apply andb_true_iff in I1 as [I0 I1]. apply String.eqb_eq in I1. eapply look_word; [exact LK|exact I1| |now apply subset_In].
        intros ->. now cbn in I0. }
      pose proof (linked_drop tbl dom names s1 es1 s2 es2 _ K ltac:(lia)) as K2. fold W in K2.
      assert (K3 : linked s2 es2 (next W the_end)) by (destruct W; cbn [next] in *; [apply (linked_free _ _ _ K2 _ end_free)|exact K2]).
      assert (EVN : evalm evalT (rev (map e_tree es2) ++ [N]) st0 = (st', Err e)).
      { rewrite evalm_app. unfold seqm at 1. rewrite EV1. unfold seqm at 1. cbn [evalm LarkLR_facts.evalT N]. unfold seqm. rewrite EV2, RE. reflexivity. }
      destruct (finish (length es2) _ s2 es2 N W B st0 st' e (le_n _) (le_n _) K3 GB (D_free _ _ _ _ DD _ end_free) EVN) as (T & more & DT & ET).
      exists T, (concat (rev (map e_words es2)) ++ W), more. rewrite app_assoc in DT.
      exists (if String.eqb t "$END" then [] else [x]). split; [exact DT|]. split; [exact ET|]. split.
      + rewrite WS, EE, map_app, rev_app_distr, concat_app. reflexivity.
      + destruct (String.eqb t "$END"); cbn; lia.
    - destruct inp as [|w inp]; cbn [lex_words] in H; [discriminate|]. destruct (classify (accepted (row (t_act tbl) (top s))) w); [discriminate|injection H as _ <- _; now left].
  Qed.

  Hypothesis classify_ok : forall acc x t, classify acc x = Some t -> In t acc /\ t <> "$END" /\ lexeme t x /\ (t = "NAME" -> ~ In x (map snd (literals acc))).
  Theorem failed ws st0 st' e i : returns tbl lex_words leaf reduce (begin ws st0) (st', Err e, i) ->
    e = LarkSyntaxError \/
    exists T w more l, D word_at (BN (Rule start)) T (w ++ more) the_end /\ evalT T st0 = (st', Err e) /\ ws = map snd w ++ l ++ i /\ length l <= 1.
  Proof.
    intros [n H]. assert (J : inv leaf reduce tbl dom names st0 ws (begin ws st0)).
    { exists []. cbn. split; [intros; apply K_nil|]. split; [apply (c_rest tbl dom first past names start C4)|]. auto. }
    revert H J. generalize (begin ws st0 : @conf V St (list string)). induction n as [|n IH]; intros c H J; [discriminate|]. cbn [run] in H.
    destruct (step tbl lex_words leaf reduce c) as [c'|[[s1 r1] i1]] eqn:E.
    - apply (IH c' H). pose proof (inv_step leaf reduce tbl dom first past names start C2 C4 classify_ok _ _ _ J) as Z. rewrite E in Z. exact Z.
    - injection H as -> -> ->. exact (fail_step _ _ _ _ _ _ J E).
  Qed.
End Finish.
