(** Trees of the generated parser, built from words: one lemma for each kind of expression. *)
From Coq Require Import String Ascii List Bool NArith Arith Lia.
From Verif Require Import Py Lexer Parser Spec_Grammar Words_facts Grammar_facts Spec_Lark.
Import ListNotations.
Open Scope string_scope.
Open Scope list_scope.

(** [X e w nx]: the tokens [w] are an [e] when [nx] follows *)
Definition X (e : sym) (w : tokens) (nx : string * string) : Prop := exists cs, tree word_at e cs w nx.
(** the words [ws] are an [e], whatever follows *)
Definition Aw (e : sym) (ws : list string) : Prop := exists w, map snd w = ws /\ forall nx, X e w nx.
(** ... if what follows may follow a type *)
Definition okx (nx : string * string) : Prop := fst nx = "NAME" -> word_at "NAME@type" (snd nx).
Definition Bw (e : sym) (ws : list string) : Prop := exists w, map snd w = ws /\ forall nx, okx nx -> X e w nx.

Lemma next_app a b nx : next (a ++ b) nx = next a (next b nx).
Proof. destruct a; reflexivity. Qed.
Definition rl (n : string) : option sym :=
  match filter (fun r => String.eqb (fst (fst r)) n) lark_rules with [(_, e, [])] => Some e | _ => None end.
Lemma rl_In n e : rl n = Some e -> In (n, e, []) lark_rules.
Proof.
  unfold rl. destruct (filter _ lark_rules) as [|[[m e'] no] [|]] eqn:F; try discriminate; destruct no; try discriminate. intros [= ->].
  assert (I : In (m, e, []) (filter (fun r => String.eqb (fst (fst r)) n) lark_rules)) by (rewrite F; now left).
  apply filter_In in I as [I E]. cbn in E. apply String.eqb_eq in E. now subst.
Qed.
Lemma X_rule n e w nx : rl n = Some e -> X e w nx -> X (N n) w nx.
Proof. intros H [cs T]. eexists. eapply P_N; [exact (rl_In _ _ H)|intros ? ? []|exact T]. Qed.
Lemma X_word t w nx : word_at t w -> X (T t) [(base t, w)] nx.
Proof. intros H. eexists. apply P_T; eassumption. Qed.
Lemma X_nil nx : X (Seq []) [] nx.
Proof. eexists. apply P_Seq_nil. Qed.
Lemma X_cons e l u v nx : X e u (next v nx) -> X (Seq l) v nx -> X (Seq (e :: l)) (u ++ v) nx.
Proof. intros [c1 T1] [c2 T2]. eexists. eapply P_Seq_cons; eassumption. Qed.
Lemma X_alt k l e w nx : nth_error l k = Some e -> X e w nx -> X (Alt l) w nx.
Proof. intros H [cs T]. eexists. eapply P_Alt; [eapply nth_error_In; eassumption|exact T]. Qed.
Lemma X_one e w nx : X e w nx -> X (Plus e) w nx.
Proof. intros [cs T]. eexists. apply P_Plus_one; eassumption. Qed.
Lemma X_star e w nx : X (Plus e) w nx -> X (Star e) w nx.
Proof. intros [cs T]. eexists. apply P_Star_some; eassumption. Qed.
Lemma X_star_nil e nx : X (Star e) [] nx.
Proof. eexists. apply P_Star_nil. Qed.
Lemma X_plus_cons e u v nx : X e u (next v nx) -> X (Plus e) v nx -> X (Plus e) (u ++ v) nx.
Proof.
  intros U [cs T]. remember (Plus e) as x eqn:E. revert U E. induction T as [| | | | | | | | |e' cs w nx T _|e' c1 c2 a b nx T1 IH1 T2 _]; intros U E; inversion E; subst.
  - apply X_one in U as [c1 U]. eexists. eapply P_Plus_more; eassumption.
  - rewrite app_assoc. rewrite next_app in U. destruct (IH1 U eq_refl) as [c W]. eexists. eapply P_Plus_more; eassumption.
Qed.
Lemma X_star_cons e u v nx : X e u (next v nx) -> X (Star e) v nx -> X (Star e) (u ++ v) nx.
Proof.
  intros U [cs T]. apply X_star. inversion T; subst.
  - rewrite app_nil_r. now apply X_one.
  - apply X_plus_cons; [exact U|]. now exists cs.
Qed.
Lemma X_plus_star e u v nx : X e u (next v nx) -> X (Star e) v nx -> X (Plus e) (u ++ v) nx.
Proof.
  intros U [cs T]. inversion T; subst.
  - rewrite app_nil_r. now apply X_one.
  - apply X_plus_cons; [exact U|]. now exists cs.
Qed.
Lemma X_lexemes e w nx : X e w nx -> Forall (fun x => lexeme (fst x) (snd x)) w.
Proof.
  intros [cs T]. induction T; auto; try (apply Forall_app; auto).
  constructor; [|constructor]. cbn [fst snd]. apply H.
Qed.
Lemma lexeme_name w : lexeme "NAME" w -> matches Name w.
Proof.
  intros (p & I & M). assert (E : p = Name); [|now subst]. revert I. unfold terminals. cbn [In]. intros I.
  repeat (destruct I as [I|I]; [injection I; try discriminate; auto|]). destruct I.
Qed.

(** * Words *)
Lemma lit_at t w : assoc t terminals = Some (Lit w) -> base t = t -> taken t = [] -> word_at t w.
Proof. intros H E K. split; [|now rewrite K]. rewrite E. exists (Lit w). split; [now apply assoc_In|reflexivity]. Qed.
Lemma name_at t w : base t = "NAME" -> matches Name w -> ~ In w (taken t) -> word_at t w.
Proof. intros E M K. split; [|exact K]. rewrite E. exists Name. split; [now left|exact M]. Qed.
Lemma rule n e ws : rl n = Some e -> Aw e ws -> Aw (N n) ws.
Proof. intros H (w & E & K). exists w. split; [exact E|]. intros nx. eapply X_rule; eauto. Qed.
Lemma ruleB n e ws : rl n = Some e -> Bw e ws -> Bw (N n) ws.
Proof. intros H (w & E & K). exists w. split; [exact E|]. intros nx O. eapply X_rule; eauto. Qed.
Lemma word_of t w : word_at t w -> Aw (T t) [w].
Proof. intros H. exists [(base t, w)]. split; [reflexivity|]. intros. now apply X_word. Qed.
Lemma lit t w : assoc t terminals = Some (Lit w) -> base t = t -> taken t = [] -> Aw (T t) [w].
Proof. intros. apply word_of. now apply lit_at. Qed.
Lemma name w : matches Name w -> Aw (T "NAME") [w].
Proof. intros H. apply word_of. now apply name_at. Qed.
Lemma numb w : number w -> Aw (T "NUMBER") [w].
Proof. intros H. apply word_of. split; [|intros []]. exists Number. split; [apply assoc_In; reflexivity|exact H]. Qed.
Lemma alt k l e ws : nth_error l k = Some e -> Aw e ws -> Aw (Alt l) ws.
Proof. intros H (w & E & K). exists w. split; [exact E|]. intros nx. eapply X_alt; eauto. Qed.

(** parts of a sequence: those that only closing parentheses may follow come before one *)
Inductive chain : list sym -> list (list string) -> Prop :=
| ch_nil : chain [] []
| ch_A e l u us : Aw e u -> chain l us -> chain (e :: l) (u :: us)
| ch_B e l u us : Bw e u -> chain (R :: l) us -> chain (e :: R :: l) (u :: us).
Lemma seq_chain l wss : chain l wss -> Aw (Seq l) (concat wss).
Proof.
  induction 1 as [|e l u us (w & Ew & K) _ (v & Ev & IH)|e l u us (w & Ew & K) _ (v & Ev & IH)]; cbn [concat].
  - exists []. split; [reflexivity|]. intros. apply X_nil.
  - exists (w ++ v). split; [rewrite map_app; congruence|]. intros nx. apply X_cons; auto.
  - exists (w ++ v). split; [rewrite map_app; congruence|]. intros nx. apply X_cons; [|auto]. apply K.
    destruct (IH nx) as [cs T]. inversion T as [| | |? ? ? ? ? ? ? T1 T2 | | | | | | |]; subst. inversion T1; subst. intros E. discriminate E.
Qed.
Lemma seq_of l wss ws : chain l wss -> ws = concat wss -> Aw (Seq l) ws.
Proof. intros H ->. now apply seq_chain. Qed.
Lemma star_all e l : Forall (fun x => Aw e (ww x)) l -> Aw (Star e) (wl l).
Proof.
  induction 1 as [|x l (w & Ew & K) _ (v & Ev & IH)]; [exists []; split; [reflexivity|intros; apply X_star_nil]|].
  exists (w ++ v). split; [rewrite map_app, wl_cons; congruence|]. intros nx. apply X_star_cons; auto.
Qed.
Lemma plus_all e l : l <> [] -> Forall (fun x => Aw e (ww x)) l -> Aw (Plus e) (wl l).
Proof.
  intros N0 H. destruct H as [|x l (w & Ew & K) F]; [contradiction|]. apply star_all in F as (v & Ev & IH).
  exists (w ++ v). split; [rewrite map_app, wl_cons; congruence|]. intros nx. apply X_plus_star; auto.
Qed.
Lemma opt_some e ws : Aw e ws -> Aw (Opt e) ws.
Proof. intros (w & E & K). exists w. split; [exact E|]. intros nx. destruct (K nx) as [cs T]. eexists. apply P_Opt_some. exact T. Qed.
Lemma opt_none e : Aw (Opt e) [].
Proof. exists []. split; [reflexivity|]. intros nx. eexists. apply P_Opt_none. Qed.
Lemma Aw_Bw e ws : Aw e ws -> Bw e ws.
Proof. intros (w & E & K). exists w. auto. Qed.
