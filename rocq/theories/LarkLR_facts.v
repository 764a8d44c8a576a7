(** The LALR(1) machine of Lark.v reads exactly the productions of a grammar, when the tables pass a
    check that can be computed.  [D]: the trees of the productions; [complete]: the machine reads every
    tree; [sound]: it reads nothing else. *)
From Coq Require Import String Ascii List Bool PArith FMapPositive Lia.
From Verif Require Import Py Names Lexer Spec_Grammar Lark Spec_Lark Py_facts.
Import ListNotations.
Open Scope string_scope.
Open Scope list_scope.

(** ** equality tests *)
Lemma sym_ind' (P : sym -> Prop) :
  (forall t, P (T t)) -> (forall n, P (N n)) -> (forall l, Forall P l -> P (Seq l)) -> (forall l, Forall P l -> P (Alt l)) ->
  (forall e, P e -> P (Opt e)) -> (forall e, P e -> P (Star e)) -> (forall e, P e -> P (Plus e)) -> forall e, P e.
Proof.
  intros HT HN HS HA HO HR HP. fix IH 1. intros [t|n|l|l|e|e|e].
  - apply HT.
  - apply HN.
  - apply HS. induction l; constructor; [apply IH|assumption].
  - apply HA. induction l; constructor; [apply IH|assumption].
  - apply HO, IH.
  - apply HR, IH.
  - apply HP, IH.
Qed.
Lemma sym_eqb_eq a : forall b, sym_eqb a b = true -> a = b.
Proof.
  induction a as [t|n|l IH|l IH|e IH|e IH|e IH] using sym_ind'; intros [t'|n'|m|m|e'|e'|e'] H; try discriminate H; cbn in H.
  - f_equal. now apply String.eqb_eq.
  - f_equal. now apply String.eqb_eq.
  - f_equal. revert m H. induction IH as [|x l X IH IH2]; intros [|y m] H; try discriminate; auto. apply andb_true_iff in H as [H1 H2]. f_equal; auto.
  - f_equal. revert m H. induction IH as [|x l X IH IH2]; intros [|y m] H; try discriminate; auto. apply andb_true_iff in H as [H1 H2]. f_equal; auto.
  - f_equal; auto.
  - f_equal; auto.
  - f_equal; auto.
Qed.
Lemma sym_eqb_refl a : sym_eqb a a = true.
Proof.
  induction a as [t|n|l IH|l IH|e IH|e IH|e IH] using sym_ind'; cbn; auto using String.eqb_refl.
  - induction IH; auto. now rewrite H, IHIH.
  - induction IH; auto. now rewrite H, IHIH.
Qed.
Lemma nt_eqb_eq a b : nt_eqb a b = true <-> a = b.
Proof.
  split.
  - destruct a, b; cbn; try discriminate; intros H; f_equal; [now apply String.eqb_eq|now apply sym_eqb_eq].
  - intros <-. destruct a; cbn; [apply String.eqb_refl|apply sym_eqb_refl].
Qed.
Lemma bsym_eqb_eq a b : bsym_eqb a b = true <-> a = b.
Proof.
  split.
  - destruct a, b; cbn; try discriminate; intros H; f_equal; [now apply String.eqb_eq|now apply nt_eqb_eq].
  - intros <-. destruct a; cbn; [apply String.eqb_refl|now apply nt_eqb_eq].
Qed.
Lemma el_eqb_eq a b : el_eqb a b = true <-> a = b.
Proof.
  split.
  - destruct a, b; cbn; try discriminate; auto. intros H; f_equal. now apply bsym_eqb_eq.
  - intros <-. destruct a; cbn; auto. now apply bsym_eqb_eq.
Qed.
Lemma list_eqb_eq {A} (eqb : A -> A -> bool) (H : forall a b, eqb a b = true <-> a = b) l : forall m, list_eqb eqb l m = true <-> l = m.
Proof.
  induction l as [|x l IH]; intros [|y m]; cbn; split; intros E; try discriminate; auto.
  - apply andb_true_iff in E as [E1 E2]. apply H in E1. apply IH in E2. congruence.
  - inversion E; subst. apply andb_true_iff. split; [now apply H|now apply IH].
Qed.

(** ** symbols without the place *)
Fixpoint er_sym (e : sym) : sym :=
  match e with
  | T t => T (base t)
  | N n => N (base n)
  | Seq l => Seq (map er_sym l)
  | Alt l => Alt (map er_sym l)
  | Opt x => Opt (er_sym x)
  | Star x => Star (er_sym x)
  | Plus x => Plus (er_sym x)
  end.
Definition er_nt (A : nt) : nt := match A with Rule n => Rule (base n) | Rep e => Rep (er_sym e) end.
Definition er_b (x : bsym) : bsym := match x with BT t => BT (base t) | BN A => BN (er_nt A) end.
Definition er_el (x : el) : el := match x with ES s => ES (er_b s) | EAbsent => EAbsent end.
Lemma syms_er a : syms (map er_el a) = map er_b (syms a).
Proof. unfold syms. induction a as [|[x|] a IH]; cbn [map er_el flat_map app]; [reflexivity| |exact IH]. now rewrite IH. Qed.

(** ** the productions and their trees *)
Definition prods_of (A : nt) : list (list el * list (string * string)) :=
  match A with
  | Rule n => flat_map (fun r => let '(m, e, no) := r in if String.eqb m n then map (fun a => (a, no)) (alts e) else []) lark_rules
  | Rep e => map (fun a => (a, [])) (rep_alts e)
  end.

Inductive btree : Type := BLeaf (w : string) | BNode (A : nt) (a : list el) (ts : list btree).

Section Derivations.
  Variable wat : string -> string -> Prop.
  Inductive D : bsym -> btree -> tokens -> string * string -> Prop :=
  | D_leaf t w nx : wat t w -> D (BT t) (BLeaf w) [(base t, w)] nx
  | D_node A a no ts w nx : In (a, no) (prods_of A) -> allowed wat no nx -> Ds (syms a) ts w nx ->
      D (BN A) (BNode (er_nt A) (map er_el a) ts) w nx
  with Ds : list bsym -> list btree -> tokens -> string * string -> Prop :=
  | Ds_nil nx : Ds [] [] [] nx
  | Ds_cons x l t ts u v nx : D x t u (next v nx) -> Ds l ts v nx -> Ds (x :: l) (t :: ts) (u ++ v) nx.
  Scheme D_mind := Minimality for D Sort Prop
  with Ds_mind := Minimality for Ds Sort Prop.
  Combined Scheme D_both from D_mind, Ds_mind.
End Derivations.

Lemma next_app u v nx : next (u ++ v) nx = next u (next v nx).
Proof. destruct u as [|[t x] u]; reflexivity. Qed.

(** ** evaluation of a tree: the callbacks in the order of the text *)
Section Eval.
  Context {V St : Type}.
  Variable leaf : string -> V.
  Variable reduce : nt -> list el -> list V -> St -> St * res V.
  Definition seqm {A B} (m : St -> St * res A) (k : A -> St -> St * res B) : St -> St * res B :=
    fun st => let '(st', r) := m st in match r with Ok a => k a st' | Err e => (st', Err e) end.
  Definition evalm {X} (f : X -> St -> St * res V) : list X -> St -> St * res (list V) :=
    fix go l := match l with
                | [] => fun st => (st, Ok [])
                | x :: r => seqm (f x) (fun v => seqm (go r) (fun vs st => (st, Ok (v :: vs))))
                end.
  Fixpoint evalT (t : btree) : St -> St * res V :=
    match t with
    | BLeaf w => fun st => (st, Ok (leaf w))
    | BNode A a ts => seqm (evalm evalT ts) (reduce A a)
    end.
  Lemma evalm_app {X} (f : X -> St -> St * res V) l m st : evalm f (l ++ m) st = seqm (evalm f l) (fun vs => seqm (evalm f m) (fun us st => (st, Ok (vs ++ us)))) st.
  Proof.
    revert st. induction l as [|x l IH]; intros st; cbn [evalm app].
    - unfold seqm. destruct (evalm f m st) as [st' [r|e]]; reflexivity.
    - unfold seqm. destruct (f x st) as [st1 [v|e]]; [|reflexivity].
      rewrite IH. unfold seqm.
      destruct (evalm f l st1) as [st2 [vs|e]]; [|reflexivity]. destruct (evalm f m st2) as [st3 [us|e]]; reflexivity.
  Qed.
  Lemma evalm_one {X} (f : X -> St -> St * res V) x st st' v : f x st = (st', Ok v) -> evalm f [x] st = (st', Ok [v]).
  Proof. intros H. cbn [evalm]. unfold seqm. now rewrite H. Qed.
End Eval.

(** ** the check of the tables *)
Section Check.
  Variable tbl : table.
  (** for each state, the rules that can begin there, with what can follow *)
  Variable dom : PositiveMap.t (list (nt * list string)).
  Variable first : list (nt * (bool * list string)).
  Variable past : PositiveMap.t (list bsym).
  (** the words that are no NAME when they have been read and not consumed in a state *)
  Variable names : PositiveMap.t (list string).
  Variable start : string.

  Fixpoint seq_first (xs : list bsym) : option (bool * list string) :=
    match xs with
    | [] => Some (true, [])
    | BT t :: _ => Some (false, [t])
    | BN B :: r =>
        match get nt_eqb B first with
        | Some (true, f) => match seq_first r with Some (nl, f') => Some (nl, f ++ f') | None => None end
        | Some (false, f) => Some (false, f)
        | None => None
        end
    end.
  Definition firsts (xs : list bsym) (F : list string) : option (list string) :=
    match seq_first xs with Some (nl, f) => Some (if nl then f ++ F else f) | None => None end.
  Definition subset (l m : list string) : bool := forallb (fun x => memb String.eqb x m) l.
  Definition check_first : bool :=
    forallb (fun r => let '(A, (nl, f)) := r in
      forallb (fun p => match seq_first (syms (fst p)) with
                        | Some (nl', f') => implb nl' nl && subset f' f
                        | None => false
                        end) (prods_of A)) first.

  (** in a state with this row, the terminal [t'] is recognised *)
  Definition lexok (r : list (string * act)) (t' : string) : bool :=
    if String.eqb t' "$END" then true else
    let t := base t' in
    let ls := literals (accepted r) in
    memb String.eqb t (accepted r)
    && match literal t with
       | Some w => match find (fun tw => String.eqb (snd tw) w) ls with Some (u, _) => String.eqb u t | None => false end
       | None => (String.eqb t "NAME" && forallb (fun tw => negb (is_name (snd tw)) || memb String.eqb (snd tw) (taken t')) ls)
                 || (String.eqb t "NUMBER" && forallb (fun tw => negb (is_number (snd tw))) ls)
       end.

  (** what may follow, after the condition of the rule *)
  Definition restrict (no : list (string * string)) (F : list string) : list string :=
    flat_map (fun t => if String.eqb t "$END" then [t] else
                       match get String.eqb (base t) no with
                       | Some u => if String.eqb u "" then [] else if String.eqb (base u) (base t) then [u] else [t]
                       | None => [t]
                       end) F.
  Fixpoint walk (q : positive) (xs : list bsym) (A : nt) (a : list el) (F : list string) : bool :=
    match xs with
    | [] => forallb (fun t => match get String.eqb (base t) (row (t_act tbl) q) with
                              | Some (Reduce B b) => nt_eqb B (er_nt A) && list_eqb el_eqb b (map er_el a)
                              | _ => false
                              end) F
    | BT t :: r =>
        match get String.eqb (base t) (row (t_act tbl) q), firsts r F with
        | Some (Shift q'), Some n => subset (taken t) (row names q) && forallb (lexok (row (t_act tbl) q')) n && walk q' r A a F
        | _, _ => false
        end
    | BN B :: r =>
        match get nt_eqb B (row dom q), get nt_eqb (er_nt B) (row (t_goto tbl) q), firsts r F with
        | Some FB, Some q', Some n => subset n FB && negb (Pos.eqb q' (t_end tbl)) && walk q' r A a F
        | _, _, _ => false
        end
    end.
  Definition check_dom : bool :=
    forallb (fun qr => forallb (fun af => forallb (fun p => walk (fst qr) (syms (fst p)) (fst af) (fst p) (restrict (snd p) (snd af))) (prods_of (fst af)))
                               (snd qr)) (PositiveMap.elements dom).
  Definition check_start : bool :=
    match get nt_eqb (Rule start) (row dom 1), get nt_eqb (Rule (base start)) (row (t_goto tbl) 1), firsts [BN (Rule start)] ["$END"] with
    | Some F, Some q, Some n => memb String.eqb "$END" F && Pos.eqb q (t_end tbl) && forallb (lexok (row (t_act tbl) 1)) n
    | _, _, _ => false
    end.
  Definition check_complete : bool := check_first && check_dom && check_start.

  Lemma dom_walk q A F p : check_dom = true -> get nt_eqb A (row dom q) = Some F -> In p (prods_of A) ->
    walk q (syms (fst p)) A (fst p) (restrict (snd p) F) = true.
  Proof.
    unfold check_dom, row. intros H G P. destruct (PositiveMap.find q dom) as [r|] eqn:E; [|discriminate G].
    apply PositiveMap.elements_correct in E. apply (proj1 (forallb_forall _ _) H) in E. cbn [snd fst] in E.
    assert (I : In (A, F) r).
    { clear -G. induction r as [|[B f] r IH]; [discriminate|]. cbn in G. destruct (nt_eqb A B) eqn:X; [apply nt_eqb_eq in X as <-; inversion G; subst; now left|right; auto]. }
    apply (proj1 (forallb_forall _ _) E) in I. cbn [snd fst] in I. now apply (proj1 (forallb_forall _ _) I) in P.
  Qed.
End Check.

(** ** completeness *)
Section Complete.
  Context {V St : Type}.
  Variable leaf : string -> V.
  Variable reduce : nt -> list el -> list V -> St -> St * res V.
  Variables (tbl : table) (dom : PositiveMap.t (list (nt * list string))) (first : list (nt * (bool * list string))) (names : PositiveMap.t (list string)) (start : string).
  Variable wat : string -> string -> Prop.
  Hypothesis lexok_ok : forall r t x, lexok r t = true -> wat t x -> t <> "$END" /\ classify (accepted r) x = Some (base t).
  Hypothesis wat_none : forall x, ~ wat "" x.
  Hypothesis C1 : check_first first = true.
  Hypothesis C2 : check_dom tbl dom first names = true.
  Hypothesis C3 : check_start tbl dom first start = true.

  Definition fits (F : list string) (k : tokens) : Prop :=
    match k with [] => In "$END" F | (t, x) :: _ => exists t', In t' F /\ base t' = t /\ wat t' x end.
  Lemma fits_sub F G k : (forall t, In t F -> In t G) -> fits F k -> fits G k.
  Proof. intros H. destruct k as [|[t x] k]; cbn; auto. intros (t' & I & X); eauto. Qed.
  Lemma subset_In l m : subset l m = true -> forall x, In x l -> In x m.
  Proof. intros H x I. apply (proj1 (forallb_forall _ _) H) in I. now apply memb_string_In. Qed.

  Lemma first_ok :
    (forall x t w nx, D wat x t w nx -> forall A nl f, x = BN A -> get nt_eqb A first = Some (nl, f) -> (w = [] -> nl = true) /\ (w <> [] -> fits f w)) /\
    (forall l ts w nx, Ds wat l ts w nx -> forall nl f, seq_first first l = Some (nl, f) -> (w = [] -> nl = true) /\ (w <> [] -> fits f w)).
  Proof.
    apply D_both.
    - intros t w nx X A nl f H. discriminate H.
    - intros A a no ts w nx I X Ds' IH B nl f H G. inversion H; subst B.
      assert (J : In (A, (nl, f)) first).
      { clear -G. induction first as [|[B f'] r IH]; [discriminate|]. cbn in G. destruct (nt_eqb A B) eqn:X; [apply nt_eqb_eq in X as <-; inversion G; subst; now left|right; auto]. }
      apply (proj1 (forallb_forall _ _) C1) in J. apply (proj1 (forallb_forall _ _) J) in I. cbn [fst] in I.
      destruct (seq_first first (syms a)) as [[nl' f']|] eqn:E; [|discriminate]. apply andb_true_iff in I as [I1 I2].
      destruct (IH _ _ eq_refl) as [P Q]. split.
      + intros W. rewrite (P W) in I1. now destruct nl.
      + intros W. eapply fits_sub; [|exact (Q W)]. now apply subset_In.
    - intros nx nl f H. inversion H; subst. split; auto. intros W; contradiction.
    - intros x l t ts u v nx Dx IHx Dl IHl nl f H. destruct x as [c|B].
      + inversion Dx; subst. inversion H; subst. split; [discriminate|]. intros _. cbn. eexists; split; [left; reflexivity|]. auto.
      + cbn [seq_first] in H. destruct (get nt_eqb B first) as [[[|] f1]|] eqn:E; [| |discriminate].
        * destruct (seq_first first l) as [[nl2 f2]|] eqn:E2; [|discriminate]. inversion H; subst. destruct (IHx _ _ _ eq_refl E) as [P1 Q1]. destruct (IHl _ _ eq_refl) as [P2 Q2]. split.
          -- intros W. apply app_eq_nil in W as [W1 W2]. auto.
          -- intros W. destruct u as [|[t1 x1] u].
             ++ cbn [app]. eapply fits_sub; [|apply Q2; exact W]. intros; apply in_or_app; auto.
             ++ specialize (Q1 ltac:(discriminate)). cbn in Q1 |- *. destruct Q1 as (t' & I & X). exists t'. split; auto. apply in_or_app; auto.
        * inversion H; subst. destruct (IHx _ _ _ eq_refl E) as [P1 Q1]. destruct u as [|[t1 x1] u]; [discriminate P1; auto|]. split; [discriminate|]. intros _. apply Q1. discriminate.
  Qed.
  Lemma fits_firsts l ts w nx F n k : Ds wat l ts w nx -> firsts first l F = Some n -> fits F k -> fits n (w ++ k).
  Proof.
    unfold firsts. intros H E X. destruct (seq_first first l) as [[nl f]|] eqn:S1; [|discriminate]. inversion E; subst.
    destruct (proj2 first_ok _ _ _ _ H _ _ S1) as [P Q]. destruct w as [|[t x] w].
    - rewrite (P eq_refl). cbn [app]. eapply fits_sub; [|exact X]. intros; apply in_or_app; auto.
    - specialize (Q ltac:(discriminate)). cbn in Q |- *. destruct Q as (t' & I & Y). exists t'. split; auto. destruct nl; auto. apply in_or_app; auto.
  Qed.

  Notation step := (step tbl lex_words leaf reduce).
  Notation returns := (returns tbl lex_words leaf reduce).
  Definition ends (c : @conf V St (list string)) (r : St * res V) : Prop := exists i, returns c (r, i).
  Lemma ends_step c c' r : step c = inl c' -> ends c' r -> ends c r.
  Proof. intros H (i & n & E). exists i, (S n). cbn [run]. now rewrite H. Qed.
  Lemma ends_stop c r i : step c = inr (r, i) -> ends c r.
  Proof. intros H. exists i, 1. cbn [run]. now rewrite H. Qed.

  Lemma get_In {A} k (l : list (string * A)) u : get String.eqb k l = Some u -> In (k, u) l.
  Proof. induction l as [|[k' u'] l IH]; [discriminate|]. cbn. destruct (String.eqb_spec k k') as [<-|]; [intros E; inversion E; subst; now left|right; auto]. Qed.
  Lemma fits_restrict no F k : fits F k -> allowed wat no (next k the_end) -> fits (restrict no F) k.
  Proof.
    destruct k as [|[t x] k]; cbn [fits next].
    - intros I _. apply in_flat_map. exists "$END". split; auto. now left.
    - intros (t' & I & <- & W) AL. destruct (String.eqb_spec t' "$END") as [->|NE].
      + exists "$END". repeat split; auto. apply in_flat_map. exists "$END". split; auto. now left.
      + destruct (get String.eqb (base t') no) as [u|] eqn:E.
        * pose proof (AL _ _ (get_In _ _ _ E) eq_refl) as WU. cbn [snd] in WU. destruct (String.eqb_spec u "") as [->|NU]; [now apply wat_none in WU|].
          destruct (String.eqb_spec (base u) (base t')) as [EB|NB].
          -- exists u. repeat split; auto. apply in_flat_map. exists t'. split; auto. destruct (String.eqb_spec t' "$END"); [contradiction|]. rewrite E.
             destruct (String.eqb_spec u ""); [contradiction|]. rewrite EB, String.eqb_refl. now left.
          -- exists t'. repeat split; auto. apply in_flat_map. exists t'. split; auto. destruct (String.eqb_spec t' "$END"); [contradiction|]. rewrite E.
             destruct (String.eqb_spec u ""); [contradiction|]. destruct (String.eqb_spec (base u) (base t')); [contradiction|]. now left.
        * exists t'. repeat split; auto. apply in_flat_map. exists t'. split; auto. destruct (String.eqb_spec t' "$END"); [contradiction|]. rewrite E. now left.
  Qed.

  Definition conf_of (stack : list (positive * V)) (k : tokens) (st : St) : conf :=
    match k with
    | [] => mkConf stack (Some ("$END", "")) [] st
    | (t, x) :: r => mkConf stack (Some (t, x)) (map snd r) st
    end.
  Lemma lex_step stack k st F : forallb (lexok (row (t_act tbl) (top stack))) F = true -> fits F k ->
    step (mkConf stack None (map snd k) st) = inl (conf_of stack k st).
  Proof.
    intros H X. cbn [Lark.step]. destruct k as [|[t x] k]; cbn [map snd lex_words].
    - reflexivity.
    - destruct X as (t' & I & <- & W). apply (proj1 (forallb_forall _ _) H) in I. destruct (lexok_ok _ _ _ I W) as [_ ->]. reflexivity.
  Qed.
  Lemma look_conf stack k st : conf_of stack k st = mkConf stack (Some (next k the_end)) (match k with [] => [] | _ :: r => map snd r end) st.
  Proof. destruct k as [|[t x] k]; reflexivity. Qed.

  (** the stack after the values [vs] *)
  Fixpoint pushes (qs : list positive) (vs : list V) (s : list (positive * V)) : list (positive * V) :=
    match qs, vs with q :: qs', v :: vs' => pushes qs' vs' ((q, v) :: s) | _, _ => s end.
  Lemma pop_app qs : forall vs s, length qs = length vs -> pushes qs vs s = rev (combine qs vs) ++ s.
  Proof.
    induction qs as [|q qs IH]; intros [|v vs] s L; try discriminate; auto. cbn [pushes combine rev]. rewrite IH by (cbn in L; congruence). now rewrite <- app_assoc.
  Qed.
  Lemma pop_rev (l : list (positive * V)) : forall s acc, pop (length l) (l ++ s) acc = (rev (map snd l) ++ acc, s).
  Proof.
    induction l as [|[q v] l IH]; intros s acc; [destruct s; reflexivity|]. cbn [length app pop map snd rev]. rewrite IH. now rewrite <- app_assoc.
  Qed.
  Lemma pop_pushes qs vs s : length qs = length vs -> pop (length vs) (pushes qs vs s) [] = (vs, s).
  Proof.
    intros H. rewrite pop_app by auto.
    assert (E : length vs = length (rev (combine qs vs))) by (rewrite rev_length, combine_length; lia). rewrite E at 1. rewrite pop_rev.
    rewrite map_rev, rev_involutive, app_nil_r. f_equal. clear E. revert vs H. induction qs as [|q qs IH]; intros [|v vs] H; try discriminate; auto. cbn. f_equal. apply IH. cbn in H; congruence.
  Qed.

  Lemma Ds_length l ts w nx : Ds wat l ts w nx -> length ts = length l.
  Proof. induction 1; cbn; auto. Qed.
  Lemma evalm_length {X} (f : X -> St -> St * res V) l : forall st st' vs, evalm f l st = (st', Ok vs) -> length vs = length l.
  Proof.
    induction l as [|x l IH]; intros st st' vs H; [inversion H; reflexivity|]. cbn [evalm] in H. unfold seqm at 1 in H. destruct (f x st) as [st1 [v|e]]; [|discriminate].
    unfold seqm in H. destruct (evalm f l st1) as [st2 [us|e]] eqn:E; [|discriminate]. inversion H; subst. cbn. f_equal. eauto.
  Qed.

  Notation evalT := (evalT leaf reduce).
  Lemma complete_both :
    (forall x t w nx, D wat x t w nx -> forall A F stack k st, x = BN A -> get nt_eqb A (row dom (top stack)) = Some F ->
       fits F k -> next k the_end = nx -> forall q', get nt_eqb (er_nt A) (row (t_goto tbl) (top stack)) = Some q' ->
       match evalT t st with
       | (st', Ok v) => forall r, (if String.eqb (fst nx) "$END" && Pos.eqb q' (t_end tbl) then r = (st', Ok v) else ends (conf_of ((q', v) :: stack) k st') r) ->
                        ends (conf_of stack (w ++ k) st) r
       | (st', Err e) => ends (conf_of stack (w ++ k) st) (st', Err e)
       end) /\
    (forall l ts w nx, Ds wat l ts w nx -> forall stack A a F k st, walk tbl dom first names (top stack) l A a F = true ->
       fits F k -> next k the_end = nx ->
       match evalm evalT ts st with
       | (st', Ok vs) => exists qs, length qs = length vs /\ walk tbl dom first names (top (pushes qs vs stack)) [] A a F = true /\
                        forall r, ends (conf_of (pushes qs vs stack) k st') r -> ends (conf_of stack (w ++ k) st) r
       | (st', Err e) => ends (conf_of stack (w ++ k) st) (st', Err e)
       end).
  Proof.
    apply D_both.
    - intros t w nx X A F stack k st H. discriminate H.
    - intros A a no ts w nx I NO Ds' IH B F stack k st H G X NX q' GO. inversion H; subst B. clear H.
      pose proof (dom_walk _ _ _ _ _ _ _ _ C2 G I) as WK. cbn [fst snd] in WK.
      assert (XR : fits (restrict no F) k) by (apply fits_restrict; [exact X|now rewrite NX]). specialize (IH stack A a (restrict no F) k st WK XR NX).
      cbn [LarkLR_facts.evalT]. unfold seqm. destruct (evalm evalT ts st) as [st1 [vs|e]] eqn:EV; [|exact IH].
      destruct IH as (qs & LQ & W1 & IH).
      assert (LEN : length (syms (map er_el a)) = length vs).
      { rewrite syms_er, map_length. erewrite (evalm_length _ _ _ _ _ EV), (Ds_length _ _ _ _ Ds'). reflexivity. }
      assert (ACT : get String.eqb (fst nx) (row (t_act tbl) (top (pushes qs vs stack))) = Some (Reduce (er_nt A) (map er_el a))).
      { cbn [walk] in W1. assert (Z : exists t', In t' (restrict no F) /\ base t' = fst nx).
        { rewrite <- NX. destruct k as [|[t x] k]; cbn in XR |- *; [exists "$END"; auto|]. destruct XR as (t' & J & J2 & _). eauto. }
        destruct Z as (t' & J & J2). apply (proj1 (forallb_forall _ _) W1) in J. rewrite J2 in J.
        destruct (get String.eqb (fst nx) (row (t_act tbl) (top (pushes qs vs stack)))) as [[?|B b]|]; try discriminate. apply andb_true_iff in J as [J1 J3].
        apply nt_eqb_eq in J1. apply (list_eqb_eq _ el_eqb_eq) in J3. now subst. }
      assert (ST : forall stx rx, reduce (er_nt A) (map er_el a) vs st1 = (stx, rx) ->
        step (conf_of (pushes qs vs stack) k st1) =
        match rx with
        | Err e => inr (stx, Err e, match k with [] => [] | _ :: r => map snd r end)
        | Ok v => if String.eqb (fst nx) "$END" && Pos.eqb q' (t_end tbl) then inr (stx, Ok v, match k with [] => [] | _ :: r => map snd r end)
                  else inl (conf_of ((q', v) :: stack) k stx)
        end).
      { intros stx rx RE. rewrite !look_conf. rewrite NX. destruct nx as [tn xn]. cbn [fst] in *. cbn [Lark.step]. rewrite ACT, LEN, pop_pushes by auto. rewrite RE. destruct rx as [v|e]; [|reflexivity]. rewrite GO.
        destruct (String.eqb tn "$END" && Pos.eqb q' (t_end tbl)); [reflexivity|]. rewrite look_conf, NX. reflexivity. }
      destruct (reduce (er_nt A) (map er_el a) vs st1) as [st2 [v|e]] eqn:RE.
      + intros r R0. apply IH. specialize (ST _ _ eq_refl). cbn beta iota in ST. destruct (String.eqb (fst nx) "$END" && Pos.eqb q' (t_end tbl)).
        * subst r. eapply ends_stop. exact ST.
        * eapply ends_step; [exact ST|exact R0].
      + apply IH. eapply ends_stop. exact (ST _ _ eq_refl).
    - intros nx stack A a F k st W X NX. cbn [evalm]. exists []. cbn. auto.
    - intros x l t ts u v nx Dx IHx Dl IHl stack A a F k st W X NX.
      assert (NX2 : next (v ++ k) the_end = next v nx) by (rewrite next_app; now rewrite NX).
      cbn [evalm]. unfold seqm at 1. destruct x as [c|B].
      + inversion Dx; subst. cbn [LarkLR_facts.evalT]. cbn [walk] in W.
        destruct (get String.eqb (base c) (row (t_act tbl) (top stack))) as [[q'|]|] eqn:E; try discriminate.
        destruct (firsts first l F) as [n|] eqn:FI; [|discriminate]. apply andb_true_iff in W as [W1 W2]. apply andb_true_iff in W1 as [W0 W1].
        assert (FN : fits n (v ++ k)) by (eapply fits_firsts; eauto).
        assert (S1 : forall r, ends (conf_of ((q', leaf w) :: stack) (v ++ k) st) r -> ends (conf_of stack (([(base c, w)] ++ v) ++ k) st) r).
        { intros r R0. cbn [app conf_of]. eapply ends_step; [cbn [Lark.step]; rewrite E; reflexivity|]. eapply ends_step; [apply lex_step with (F := n); [exact W1|exact FN]|exact R0]. }
        specialize (IHl ((q', leaf w) :: stack) A a F k st W2 X eq_refl). unfold seqm.
        destruct (evalm evalT ts st) as [st' [vs|e]].
        * destruct IHl as (qs & LQ & W3 & IHl). exists (q' :: qs). cbn [length pushes]. repeat split; auto.
        * auto.
      + cbn [walk] in W. destruct (get nt_eqb B (row dom (top stack))) as [FB|] eqn:E1; [|discriminate].
        destruct (get nt_eqb (er_nt B) (row (t_goto tbl) (top stack))) as [q'|] eqn:E2; [|discriminate].
        destruct (firsts first l F) as [n|] eqn:FI; [|discriminate]. apply andb_true_iff in W as [W1 W2]. apply andb_true_iff in W1 as [W1 W3].
        assert (FN : fits FB (v ++ k)).
        { eapply fits_sub; [apply subset_In; exact W1|]. eapply fits_firsts; eauto. }
        specialize (IHx B FB stack (v ++ k) st eq_refl E1 FN NX2 q' E2). rewrite <- app_assoc.
        apply negb_true_iff in W3. rewrite W3, andb_false_r in IHx.
        destruct (evalT t st) as [st1 [v0|e]]; [|exact IHx].
        specialize (IHl ((q', v0) :: stack) A a F k st1 W2 X NX). unfold seqm.
        destruct (evalm evalT ts st1) as [st' [vs|e]].
        * destruct IHl as (qs & LQ & W4 & IHl). exists (q' :: qs). cbn [length pushes]. repeat split; auto.
        * auto.
  Qed.

  (** the machine reads every tree *)
  Theorem complete t w st : D wat (BN (Rule start)) t w the_end -> base start = start ->
    ends (begin (map snd w) st) (evalT t st).
  Proof.
    intros H BS. unfold check_start in C3. destruct (get nt_eqb (Rule start) (row dom 1)) as [F|] eqn:E1; [|discriminate].
    destruct (get nt_eqb (Rule (base start)) (row (t_goto tbl) 1)) as [q|] eqn:E2; [|discriminate].
    destruct (firsts first [BN (Rule start)] ["$END"]) as [n|] eqn:E3; [|discriminate].
    apply andb_true_iff in C3 as [C4 C5]. apply andb_true_iff in C4 as [C4 C6]. apply memb_string_In in C4.
    assert (X : fits n w).
    { rewrite <- (app_nil_r w). eapply fits_firsts; [|exact E3|left; reflexivity]. rewrite <- (app_nil_r w). eapply Ds_cons; [exact H|apply Ds_nil]. }
    eapply ends_step; [apply (lex_step [] w st n C5 X)|].
    pose proof (proj1 complete_both _ _ _ _ H (Rule start) F [] [] st eq_refl E1 C4 eq_refl q E2) as Z. rewrite app_nil_r in Z.
    destruct (evalT t st) as [st' [v|e]]; [|exact Z]. apply Z. now rewrite C6.
  Qed.
End Complete.
