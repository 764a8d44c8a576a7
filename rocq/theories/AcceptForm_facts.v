(** What the parsers accept has a tree of the generated parser: terms, typed lists, conditions and effects. *)
From Coq Require Import String Ascii List Bool NArith Arith Lia.
From Verif Require Import Py Names Reqs Logic Core Lexer TypedList Parser Spec_Parse Py_facts Names_facts Lex_facts
     Parse_facts GD_facts Text_facts Domain_facts Spec_Grammar Words_facts Grammar_facts Spec_Lark AcceptBase_facts.
Import ListNotations.
Open Scope string_scope.
Open Scope list_scope.

Ltac lits := first [apply lit; reflexivity | apply name; assumption | apply numb; assumption | assumption].
Ltac pieces := repeat first [apply ch_nil | apply ch_B; [assumption|] | apply ch_A; [try lits|]].

Lemma variable_rule n : matches Name n -> Aw (N "variable") ["?"; n].
Proof.
  intros H. eapply (rule "variable"); [reflexivity|]. apply (seq_of _ [["?"]; [n]]); [|reflexivity]. pieces.
Qed.
Lemma term_var n : matches Name n -> Aw (N "term") ["?"; n].
Proof. intros H. eapply (rule "term"); [reflexivity|]. eapply (alt 1); [reflexivity|]. now apply variable_rule. Qed.
Lemma term_name n : matches Name n -> Aw (N "term") [n].
Proof. intros H. eapply (rule "term"); [reflexivity|]. eapply (alt 0); [reflexivity|]. eapply (rule "constant"); [reflexivity|]. lits. Qed.

(** * Types *)
Definition ty (g : string) : string * string := (if String.eqb g "object" then "OBJECT" else "NAME", g).
Lemma ty_okx g : matches Name g -> okx (ty g).
Proof.
  intros M. unfold okx, ty. cbn [fst snd]. destruct (String.eqb_spec g "object") as [->|H]; [discriminate|]. intros _.
  apply name_at; [reflexivity|exact M|]. cbn. intros [E|[]]. congruence.
Qed.
Lemma In_rule n e no : In (n, e, no) changed_rules -> In (n, e, no) lark_rules.
Proof. intros H. apply in_or_app. now left. Qed.
Lemma primitive_X g nx : matches Name g -> okx nx -> X (N "primitive_type") [ty g] nx.
Proof.
  intros M O. eexists. eapply P_N; [apply In_rule; cbn; do 3 right; left; reflexivity| |].
  - intros t t' [E|[]]. injection E as <- <-. exact O.
  - unfold ty. destruct (String.eqb_spec g "object") as [->|H].
    + eapply P_Alt; [right; left; reflexivity|]. apply (P_T word_at "OBJECT"). now apply lit_at.
    + eapply P_Alt; [left; reflexivity|]. apply (P_T word_at "NAME@type"). apply name_at; [reflexivity|exact M|]. cbn. intros [E|[]]. congruence.
Qed.
Lemma primitives_X gs nx : Forall (matches Name) gs -> okx nx -> X (Star (N "primitive_type")) (map ty gs) nx.
Proof.
  induction 1 as [|g gs M F IH]; intros O; [apply X_star_nil|]. cbn [map]. apply (X_star_cons _ [ty g]); [|auto].
  apply primitive_X; auto. destruct F; [exact O|now apply ty_okx].
Qed.
Lemma primitives_plus gs nx : gs <> [] -> Forall (matches Name) gs -> okx nx -> X (Plus (N "primitive_type")) (map ty gs) nx.
Proof.
  intros N0 F O. destruct F as [|g gs M F]; [contradiction|]. cbn [map]. apply (X_plus_star _ [ty g]); [|now apply primitives_X].
  apply primitive_X; auto. destruct F; [exact O|now apply ty_okx].
Qed.
Lemma rpar_okx w : okx ("RPAR", w).
Proof. intros E. discriminate E. Qed.
Lemma type_def_X s gs : type_def s = Some gs -> wf s -> exists w, map snd w = ww s /\ forall nx, okx nx -> X (N "type_def") w nx.
Proof.
  intros H W. destruct s as [[]|[|[[]|] ts]]; try discriminate.
  - wfs. exists [ty s]. split; [reflexivity|]. intros nx O. eapply X_rule; [reflexivity|]. eapply (X_alt 1); [reflexivity|]. now apply primitive_X.
  - cbn [type_def] in H. destruct (String.eqb_spec s "either") as [->|]; [|discriminate].
    assert (M : ts <> [] /\ mapO Parser.word ts = Some gs) by (destruct ts; [discriminate|split; [discriminate|exact H]]). destruct M as [N0 M]. wfs.
    destruct (words_wf _ _ M W) as [E F].
    assert (Ng : gs <> []) by (destruct gs; [apply mapO_word_inv in M; subst; contradiction|discriminate]).
    exists ([("LPAR", "(")] ++ [("EITHER", "either")] ++ map ty gs ++ [("RPAR", ")")] ++ []). split.
    { rewrite !map_app, map_map. cbn [map ty snd]. rewrite map_id. words. rewrite E. reflexivity. }
    intros nx O. eapply X_rule; [reflexivity|]. eapply (X_alt 0); [reflexivity|].
    apply X_cons; [apply (X_word "LPAR"); now apply lit_at|]. apply X_cons; [apply (X_word "EITHER"); now apply lit_at|].
    apply X_cons; [apply primitives_plus; auto; apply rpar_okx|]. apply X_cons; [apply (X_word "RPAR"); now apply lit_at|]. apply X_nil.
Qed.

(** * Typed lists *)
Section TL.
  Variables (V TD : sym).
  Definition SEP : string * string := ("TYPE_SEP", "-").
  Definition PX (seen : bool) (w : tokens) (nx : string * string) : Prop :=
    X (Star V) w nx \/
    exists v t g r, w = v ++ SEP :: t ++ g ++ r /\ (if seen then X (Star V) v SEP else X (Plus V) v SEP)
      /\ X TD t (next (g ++ r) nx) /\ X (Star (group V TD)) g (next r nx) /\ X (Star V) r nx.
  Lemma PX_nil seen nx : PX seen [] nx.
  Proof. left. apply X_star_nil. Qed.
  Lemma PX_item seen u w nx : (forall n, X V u n) -> PX true w nx -> PX seen (u ++ w) nx.
  Proof.
    intros H [K|(v & t & g & r & -> & S1 & S2 & S3 & S4)].
    - left. apply X_star_cons; auto.
    - right. exists (u ++ v), t, g, r. rewrite <- app_assoc. repeat split; auto. destruct seen; [apply X_star_cons|apply X_plus_star]; auto.
  Qed.
  Lemma group_X v t nx : X (Plus V) v SEP -> X TD t nx -> X (group V TD) (v ++ SEP :: t) nx.
  Proof.
    intros H1 H2. unfold group. apply X_cons; [exact H1|]. apply (X_cons _ _ [SEP]); [apply (X_word "TYPE_SEP"); now apply lit_at|].
    rewrite <- (app_nil_r t). apply X_cons; [|apply X_nil]. cbn. exact H2.
  Qed.
  Lemma PX_sep t w nx : X TD t (next w nx) -> PX false w nx -> PX true (SEP :: t ++ w) nx.
  Proof.
    intros H [K|(v & t' & g & r & -> & S1 & S2 & S3 & S4)]; right.
    - exists [], t, [], w. repeat split; auto; apply X_star_nil.
    - exists [], t, ((v ++ SEP :: t') ++ g), r. repeat split.
      + cbn [app]. do 2 f_equal. rewrite <- !app_assoc. cbn [app]. rewrite <- ?app_assoc. reflexivity.
      + apply X_star_nil.
      + replace (((v ++ SEP :: t') ++ g) ++ r) with (v ++ SEP :: t' ++ g ++ r); [exact H|]. rewrite <- !app_assoc. cbn [app]. rewrite <- ?app_assoc. reflexivity.
      + apply X_star_cons; auto. apply group_X; auto. rewrite next_app in S2. exact S2.
      + exact S4.
  Qed.
  Lemma PX_groups w nx : PX false w nx -> X (Star V) w nx \/ X (Seq [Plus (group V TD); Star V]) w nx.
  Proof.
    intros [K|(v & t & g & r & -> & S1 & S2 & S3 & S4)]; [auto|]. right.
    replace (v ++ SEP :: t ++ g ++ r) with (((v ++ SEP :: t) ++ g) ++ r ++ []); [|rewrite app_nil_r, <- !app_assoc; cbn [app]; rewrite <- ?app_assoc; reflexivity].
    apply X_cons; [|apply X_cons; [exact S4|apply X_nil]]. rewrite app_nil_r. apply X_plus_star; auto. apply group_X; auto. rewrite next_app in S2. exact S2.
  Qed.
  Lemma PX_done w nx : PX false w nx -> X (Alt [Star V; Seq [Plus (group V TD); Star V]]) w nx.
  Proof. intros H. apply PX_groups in H as [H|H]; [eapply (X_alt 0)|eapply (X_alt 1)]; try reflexivity; exact H. Qed.
  Lemma PX_done_plus w nx : w <> [] -> PX false w nx -> X (Alt [Plus V; Seq [Plus (group V TD); Star V]]) w nx.
  Proof.
    intros N0 H. apply PX_groups in H as [[cs H]|H]; [eapply (X_alt 0)|eapply (X_alt 1)]; try reflexivity; [|exact H].
    inversion H; subst; [contradiction|]. eexists; eassumption.
  Qed.
End TL.
Lemma tl_vars_X l : forall seen ts, tl_vars seen l = Some ts -> wfl l ->
  exists w, map snd w = wl l /\ (seen = false -> forall nx, okx nx -> okx (next w nx)) /\ forall nx, okx nx -> PX (N "variable") (N "type_def") seen w nx.
Proof.
  remember (length l) as n. assert (Hn : length l <= n) by lia. clear Heqn. revert l Hn.
  induction n as [|n IH]; intros l Hn seen ts H W; (destruct l as [|x [|y r]]; [exists []; split; [reflexivity|]; split; [auto|intros; apply PX_nil]| |]); try (cbn in Hn; lia).
  1: destruct x as [[]|]; discriminate.
  cbn in Hn. apply wfl_cons in W as [W1 W]. apply wfl_cons in W as [W2 W]. destruct x as [[]|]; try discriminate.
  - destruct y as [[]|]; try discriminate. cbn [tl_vars] in H. destruct (tl_vars true r) eqn:E; [|discriminate].
    destruct (IH r) with (seen := true) (ts := l) as (w & Ew & _ & K); auto; [lia|]. wfs.
    exists ([("?", "?"); ("NAME", s)] ++ w). split; [rewrite map_app, Ew, !wl_cons; reflexivity|]. split; [intros _ nx _ E1; discriminate E1|].
    intros nx O. apply PX_item; [|auto]. intros nx'. eapply X_rule; [reflexivity|]. apply (X_cons _ _ [("?", "?")]); [apply (X_word "?"); now apply lit_at|].
    apply (X_cons _ _ [("NAME", s)] []); [apply (X_word "NAME"); now apply name_at|apply X_nil].
  - cbn [tl_vars] in H. destruct (String.eqb_spec s "-") as [->|]; [|discriminate]. destruct seen; [|discriminate]. cbn [andb] in H.
    destruct (type_def y) eqn:E1; [|discriminate]. destruct (tl_vars false r) eqn:E2; [|discriminate].
    destruct (IH r) with (seen := false) (ts := l0) as (w & Ew & Kn & K); auto; [lia|]. destruct (type_def_X _ _ E1 W2) as (t & Et & Kt).
    exists (SEP :: t ++ w). split; [cbn [map]; rewrite map_app, Ew, Et, !wl_cons; reflexivity|]. split; [discriminate|].
    intros nx O. apply PX_sep; auto.
Qed.
Lemma typed_vars_rule l ts : tl_vars false l = Some ts -> wfl l -> Bw (N "typed_list_variable") (wl l).
Proof.
  intros H W. destruct (tl_vars_X _ _ _ H W) as (w & E & _ & K). exists w. split; [exact E|]. intros nx O. eapply X_rule; [reflexivity|]. apply PX_done. auto.
Qed.
Lemma tl_names_X l : forall seen ts, tl_names seen l = Some ts -> wfl l ->
  exists w, map snd w = wl l /\ (seen = false -> object_next l = false -> forall nx, okx nx -> okx (next w nx)) /\ forall nx, okx nx -> PX (T "NAME") (N "primitive_type") seen w nx.
Proof.
  remember (length l) as n. assert (Hn : length l <= n) by lia. clear Heqn. revert l Hn.
  induction n as [|n IH]; intros l Hn seen ts H W; (destruct l as [|x r]; [exists []; split; [reflexivity|]; split; [auto|intros; apply PX_nil]|]); [cbn in Hn; lia|].
  cbn in Hn. apply wfl_cons in W as [W1 W]. destruct x as [[]|]; try discriminate.
  - cbn [tl_names] in H. destruct (tl_names true r) eqn:E; [|discriminate].
    destruct (IH r) with (seen := true) (ts := l) as (w & Ew & _ & K); auto; [lia|]. wfs.
    exists ([("NAME", s)] ++ w). split; [rewrite map_app, Ew, !wl_cons; reflexivity|]. split.
    + intros _ No nx _ _. cbn [next app snd]. apply name_at; [reflexivity|exact W1|]. cbn. intros [E1|[]]. subst. discriminate No.
    + intros nx O. apply PX_item; [|auto]. intros nx'. apply (X_word "NAME"). now apply name_at.
  - destruct r as [|[[]|] r]; try discriminate. cbn [tl_names] in H. destruct (String.eqb_spec s "-") as [->|]; [|discriminate]. destruct seen; [|discriminate]. cbn [andb] in H.
    destruct (object_next r) eqn:No; [discriminate|]. cbn [negb] in H. destruct (tl_names false r) eqn:E2; [|discriminate]. wfs.
    destruct (IH r) with (seen := false) (ts := l) as (w & Ew & Kn & K); auto; [cbn in Hn; lia|].
    exists (SEP :: [ty s0] ++ w). split; [cbn [map app]; rewrite Ew, !wl_cons; reflexivity|]. split; [discriminate|].
    intros nx O. apply PX_sep; [apply primitive_X|]; auto.
Qed.
Lemma typed_names_rule l ts : tl_names false l = Some ts -> wfl l -> Bw (N "typed_list_name") (wl l).
Proof.
  intros H W. destruct (tl_names_X _ _ _ H W) as (w & E & _ & K). exists w. split; [exact E|]. intros nx O. eapply X_rule; [reflexivity|]. apply PX_done. auto.
Qed.

(** * Terms, atoms and numeric expressions *)
Lemma star_cons e u v : Aw e u -> Aw (Star e) v -> Aw (Star e) (u ++ v).
Proof. intros (w & <- & K) (w' & <- & K'). exists (w ++ w'). split; [apply map_app|]. intros nx. apply X_star_cons; auto. Qed.
Lemma star_nil e : Aw (Star e) [].
Proof. exists []. split; [reflexivity|]. intros. apply X_star_nil. Qed.
Lemma terms_rule l : forall ps, terms l = Some ps -> wfl l -> Aw (Star (N "term")) (wl l).
Proof.
  remember (length l) as n. assert (Hn : length l <= n) by lia. clear Heqn. revert l Hn.
  induction n as [|n IH]; intros l Hn ps H W; (destruct l as [|x r]; [apply star_nil|]); [cbn in Hn; lia|].
  cbn in Hn. apply wfl_cons in W as [W1 W]. destruct x as [[]|]; try discriminate.
  - destruct r as [|[[]|] r]; try discriminate. cbn [terms] in H. destruct (terms r) eqn:E; [|discriminate]. wfs.
    rewrite !wl_cons, !ww_atom. cbn [spell app]. apply (star_cons _ ["?"; s]); [|eapply IH; eauto; cbn in Hn; lia]. now apply term_var.
  - cbn [terms] in H. destruct (terms r) eqn:E; [|discriminate]. wfs.
    rewrite !wl_cons, !ww_atom. cbn [spell]. apply star_cons; [|eapply IH; eauto; lia]. now apply term_name.
Qed.
Lemma two_terms_rule l a b : terms l = Some [a; b] -> wfl l -> exists u v, wl l = u ++ v /\ Aw (N "term") u /\ Aw (N "term") v.
Proof.
  assert (One : forall l p ps, terms l = Some (p :: ps) -> wfl l -> exists u r, wl l = u ++ wl r /\ Aw (N "term") u /\ terms r = Some ps /\ wfl r).
  { clear. intros l p ps H W. destruct l as [|x r]; [discriminate|]. apply wfl_cons in W as [W1 W]. destruct x as [[]|]; try discriminate.
    - destruct r as [|[[]|] r]; try discriminate. cbn [terms] in H. destruct (terms r) eqn:E; [|discriminate]. wfs. injection H as _ <-.
      exists ["?"; s], r. split; [rewrite !wl_cons, !ww_atom; reflexivity|]. split; [|auto]. now apply term_var.
    - cbn [terms] in H. destruct (terms r) eqn:E; [|discriminate]. wfs. injection H as _ <-.
      exists [s], r. split; [rewrite !wl_cons, !ww_atom; reflexivity|]. split; [|auto]. now apply term_name. }
  intros H W. destruct (One _ _ _ H W) as (u & r & E & Du & H' & W'). destruct (One _ _ _ H' W') as (v & r' & E' & Dv & H'' & W'').
  destruct r' as [|z r']; [|destruct z as [[]|]; try discriminate; cbn [terms] in H''; [destruct r' as [|[[]|] ?]; try discriminate|]; match type of H'' with context [terms ?q] => destruct (terms q) end; discriminate H''].
  exists u, v. rewrite E, E', wl_nil, app_nil_r. auto.
Qed.
(** atoms at a place: [a], [p] and [t] are the versions of the rules and of NAME there *)
Section Place.
  Variables a p t : string.
  Hypotheses (Ra : rl a = Some (atomic_at p)) (Rp : rl p = Some (T t)) (Bt : base t = "NAME").
  Lemma atomic_pred_rule c n args f : atomic_pred c n args = Ok f -> matches Name n -> ~ In n (taken t) -> wfl args -> Aw (N a) (ww (SList (SAtom (TWord n) :: args))).
  Proof.
    intros H M Nt W. unfold atomic_pred in H. destruct (terms args) as [ps|] eqn:E; [|discriminate].
    eapply rule; [exact Ra|]. eapply (alt 0); [reflexivity|]. apply (seq_of _ [["("]; [n]; wl args; [")"]]); [|words].
    pieces; [eapply rule; [exact Rp|]; apply word_of; now apply name_at|eapply terms_rule; eauto].
  Qed.
  Lemma atomic_eq_rule c args f : atomic_eq c args = Ok f -> wfl args -> Aw (N a) (ww (SList (SAtom (TOp "=") :: args))).
  Proof.
    intros H W. unfold atomic_eq in H. destruct (terms args) as [[|x [|y [|]]]|] eqn:E; try discriminate.
    destruct (two_terms_rule _ _ _ E W) as (u & v & Ew & Du & Dv).
    eapply rule; [exact Ra|]. eapply (alt 1); [reflexivity|]. apply (seq_of _ [["("]; ["="]; u; v; [")"]]); [|words; rewrite Ew, <- ?app_assoc; reflexivity].
    pieces.
  Qed.
  Lemma atomic_rule c s f : atomic_formula_term c s = Ok f -> (forall n args, s = SList (SAtom (TWord n) :: args) -> ~ In n (taken t)) -> wf s -> Aw (N a) (ww s).
  Proof.
    intros H Nt W. destruct s as [|[|[[]|] args]]; try discriminate; wfs.
    - eapply atomic_pred_rule; eauto.
    - cbn in H. destruct (String.eqb_spec s "=") as [->|]; [|discriminate]. eapply atomic_eq_rule; eauto.
  Qed.
End Place.
Lemma f_head_rule c s f : f_head c s = Ok f -> wf s -> Aw (N "f_head") (ww s).
Proof.
  intros H W. eapply (rule "f_head"); [reflexivity|]. destruct s as [[]|[|[[]|] args]]; try discriminate; wfs.
  - eapply (alt 0); [reflexivity|]. lits.
  - cbn [f_head] in H. destruct (terms args) as [ps|] eqn:E; [|discriminate].
    eapply (alt 1); [reflexivity|]. apply (seq_of _ [["("]; [s]; wl args; [")"]]); [|words].
    pieces. eapply terms_rule; eauto.
Qed.
Lemma arith_rule E o args k : arith_op o (length args) = Some k -> Forall (fun x => Aw E (ww x)) args ->
  Aw (Alt [Seq [L; N "binary_op"; E; E; R]; Seq [L; N "multi_op"; E; Plus E; R]; Seq [L; T "MINUS"; E; R]]) (ww (SList (SAtom (TOp o) :: args))).
Proof.
  intros H F. unfold arith_op in H.
  assert (Multi : (o = "+" \/ o = "*") -> 2 <= length args -> Aw (Alt [Seq [L; N "binary_op"; E; E; R]; Seq [L; N "multi_op"; E; Plus E; R]; Seq [L; T "MINUS"; E; R]]) (ww (SList (SAtom (TOp o) :: args)))).
  { intros O Ln. destruct args as [|x [|y r]]; cbn in Ln; try lia. inversion F as [|? ? F1 F2]; subst.
    eapply (alt 1); [reflexivity|]. apply (seq_of _ [["("]; [o]; ww x; wl (y :: r); [")"]]); [|words].
    pieces; [|apply plus_all; [discriminate|auto]].
    eapply (rule "multi_op"); [reflexivity|]. destruct O as [->| ->]; [eapply (alt 1)|eapply (alt 0)]; try reflexivity; lits. }
  destruct (String.eqb_spec o "+") as [->|]; [destruct (Nat.leb_spec 2 (length args)); [auto|discriminate]|].
  destruct (String.eqb_spec o "*") as [->|]; [destruct (Nat.leb_spec 2 (length args)); [auto|discriminate]|].
  destruct (String.eqb_spec o "/") as [->|].
  { destruct args as [|x [|y [|]]]; try discriminate. inversion F as [|? ? F1 F2]; subst. inversion F2 as [|? ? F3 F4]; subst.
    eapply (alt 0); [reflexivity|]. apply (seq_of _ [["("]; ["/"]; ww x; ww y; [")"]]); [|words].
    pieces. eapply (rule "binary_op"); [reflexivity|]. lits. }
  destruct (String.eqb_spec o "-") as [->|]; [|discriminate].
  destruct args as [|x [|]]; try discriminate. inversion F as [|? ? F1 F2]; subst.
  eapply (alt 2); [reflexivity|]. apply (seq_of _ [["("]; ["-"]; ww x; [")"]]); [|words]. pieces; auto.
Qed.
Lemma alt_weaken l l' ws : (forall e, In e l -> In e l') -> Aw (Alt l) ws -> Aw (Alt l') ws.
Proof. intros I (w & E & K). exists w. split; [exact E|]. intros nx. destruct (K nx) as [cs T]. inversion T; subst. eexists. eapply P_Alt; eauto. Qed.
Lemma mapR_rule {B} (f : sexp -> res B) E args fs : mapR f args = Ok fs -> Forall (fun x => forall y, f x = Ok y -> wf x -> Aw E (ww x)) args -> wfl args ->
  Forall (fun x => Aw E (ww x)) args.
Proof.
  intros M F W. apply wfl_Forall in W. apply mapR_Ok in M. induction M; constructor; inversion F; inversion W; subst; eauto.
Qed.
Lemma f_exp_rule c s : forall f, f_exp c s = Ok f -> wf s -> Aw (N "f_exp") (ww s).
Proof.
  induction s as [t|l IH] using sexp_ind'; intros f H W.
  - eapply (rule "f_exp"); [reflexivity|]. destruct t; try discriminate.
    + eapply (alt 4); [reflexivity|]. apply (f_head_rule c _ f); auto.
    + wfs. eapply (alt 0); [reflexivity|]. eapply (rule "num_literal"); [reflexivity|]. lits.
  - eapply (rule "f_exp"); [reflexivity|]. destruct l as [|[[]|] args]; try discriminate.
    + eapply (alt 4); [reflexivity|]. apply (f_head_rule c _ f); auto.
    + cbn [f_exp] in H. destruct (arith_op s (length args)) as [k|] eqn:A; [|discriminate]. apply bind_Ok in H as (ops & M & _).
      inversion IH as [|? ? _ IH']; subst. wfs. pose proof (arith_rule (N "f_exp") s args k A (mapR_rule (f_exp c) (N "f_exp") args ops M IH' W)) as X.
      eapply alt_weaken; [|exact X]. cbn. tauto.
Qed.
Lemma name_not_number z : matches Name z -> number z -> False.
Proof.
  intros (a & r & -> & H1 & H2) Nu. assert (K1 := K_name a r H1 H2). assert (K2 := K_num _ Nu).
  assert (E1 := kind_lex _ _ K1 ""). assert (E2 := kind_lex _ _ K2 ""). rewrite E1 in E2 by discriminate. specialize (E2 ltac:(discriminate)). discriminate E2.
Qed.
(** a comparison "=" is not followed by a name *)
Lemma equal_rule c x y f g : f_exp c x = Ok f -> f_exp c y = Ok g -> starts_term [x; y] = false -> wf x -> wf y ->
  Aw (Seq [L; N "binary_comp"; N "f_exp"; N "f_exp"; R]) (ww (SList [SAtom (TOp "="); x; y])).
Proof.
  intros H H' St Wx Wy. pose proof (f_exp_rule _ _ _ H Wx) as (u & Eu & Ku). destruct (f_exp_rule _ _ _ H' Wy) as (v & Ev & Kv).
  exists ([("LPAR", "(")] ++ [("EQUAL_OP", "=")] ++ u ++ v ++ [("RPAR", ")")] ++ []). split.
  { rewrite !map_app, Eu, Ev. words. }
  intros nx. apply X_cons; [apply (X_word "LPAR"); now apply lit_at|]. apply X_cons.
  - eexists. eapply P_N; [apply In_rule; cbn; do 2 right; left; reflexivity| |apply (P_T word_at "EQUAL_OP"); now apply lit_at].
    intros t t' [E|[]]. injection E as <- <-. intros Nm. exfalso.
    pose proof (X_lexemes _ _ _ (Ku nx)) as F. destruct u as [|[q0 z] u]; [symmetry in Eu; destruct x as [|l0]; [discriminate Eu|rewrite ww_list in Eu; discriminate Eu]|].
    inversion F as [|? ? F1 _]; subst. cbn [fst snd app next] in *. subst q0. apply lexeme_name in F1.
    destruct x as [[]|l0]; try discriminate.
    + cbn in Eu. injection Eu as -> _. wfs. eapply name_not_number; eauto.
    + rewrite ww_list in Eu. injection Eu as -> _. destruct F1 as (a & r & E & La & _). injection E as <- _. apply letter_spec in La. discriminate La.
  - apply X_cons; [auto|]. apply X_cons; [auto|]. apply X_cons; [apply (X_word "RPAR"); now apply lit_at|apply X_nil].
Qed.

(** * Conditions *)
Ltac notin := cbn; intuition congruence.
Section Conditions.
  Variable c : gctx.
  Hypothesis HC : vars_ok c.
  Lemma gd_rule s : forall f, gd c s = Ok f -> wf s -> Aw (N "gd") (ww s).
  Proof.
    induction s as [t|l IH] using sexp_ind'; intros f H W; [discriminate|].
    destruct l as [|[[]|] args]; try discriminate; inversion IH as [|? ? _ IH']; subst; clear IH.
    - cbn [gd] in H. pose proof W as W0. wfs.
      assert (St : forall fs, mapR (gd c) args = Ok fs -> Aw (Star (N "gd")) (wl args)).
      { intros fs M. apply star_all. eapply mapR_rule; eauto. }
      destruct (String.eqb_spec s "or") as [->|].
      { apply bind_Ok in H as (fs & M & _). eapply (rule "gd"); [reflexivity|]. eapply (alt 1); [reflexivity|].
        apply (seq_of _ [["("]; ["or"]; wl args; [")"]]); [|words]. pieces; eauto. }
      destruct (String.eqb_spec s "not") as [->|].
      { destruct args as [|x [|]]; try discriminate. apply bind_Ok in H as (g & M & _). inversion IH'; subst. wfs. eapply (rule "gd"); [reflexivity|]. eapply (alt 2); [reflexivity|].
        apply (seq_of _ [["("]; ["not"]; ww x; [")"]]); [|words]. pieces; eauto. }
      destruct (String.eqb_spec s "and") as [->|].
      { apply bind_Ok in H as (fs & M & _). eapply (rule "gd"); [reflexivity|]. eapply (alt 3); [reflexivity|].
        apply (seq_of _ [["("]; ["and"]; wl args; [")"]]); [|words]. pieces; eauto. }
      destruct (String.eqb_spec s "imply") as [->|].
      { destruct args as [|x [|y [|]]]; try discriminate. apply bind_Ok in H as (g & M & H). apply bind_Ok in H as (g' & M' & _).
        inversion IH' as [|? ? Ix IH1]; subst. inversion IH1 as [|? ? Iy _]; subst. wfs. eapply (rule "gd"); [reflexivity|]. eapply (alt 4); [reflexivity|].
        apply (seq_of _ [["("]; ["imply"]; ww x; ww y; [")"]]); [|words]. pieces; eauto. }
      destruct (String.eqb s "exists" || String.eqb s "forall") eqn:Q.
      { destruct (if String.eqb s "exists" then (QExists, EXISTENTIAL_PRECONDITION) else (QForall, UNIVERSAL_PRECONDITION)) as [q r].
        destruct args as [|[|vs] [|x [|]]]; try discriminate. apply bind_Ok in H as (tl & V & H). apply bind_Ok in H as (g & M & _).
        inversion IH' as [|? ? _ IH1]; subst. inversion IH1 as [|? ? Ix _]; subst. wfs.
        match goal with H : wfl vs |- _ => rename H into Wv end. match goal with H : wf x |- _ => rename H into Wx end.
        destruct (HC _ _ V) as (ts & Tv). pose proof (typed_vars_rule _ _ Tv Wv) as Dv. pose proof (Ix _ M Wx) as Dx.
        eapply (rule "gd"); [reflexivity|].
        apply orb_true_iff in Q as [Q|Q]; apply String.eqb_eq in Q; subst; [eapply (alt 5)|eapply (alt 6)]; try reflexivity.
        - apply (seq_of _ [["("]; ["exists"]; ["("]; wl vs; [")"]; ww x; [")"]]); [|words]. pieces.
        - apply (seq_of _ [["("]; ["forall"]; ["("]; wl vs; [")"]; ww x; [")"]]); [|words]. pieces. }
      apply orb_false_iff in Q as [Q1 Q2]. apply String.eqb_neq in Q1, Q2.
      eapply (rule "gd"); [reflexivity|]. eapply (alt 0); [reflexivity|]. eapply (atomic_pred_rule "atomic_formula_term@gd" "predicate@gd" "NAME@gd"); eauto. notin.
    - cbn [gd] in H. wfs. destruct (String.eqb s "=" && starts_term args) eqn:Q.
      { apply andb_true_iff in Q as [Q _]. apply String.eqb_eq in Q. subst. eapply (rule "gd"); [reflexivity|]. eapply (alt 0); [reflexivity|].
        eapply (atomic_eq_rule "atomic_formula_term@gd" "predicate@gd"); eauto. }
      destruct (comparison s) as [k|] eqn:K; [|discriminate]. destruct args as [|x [|y [|]]]; try discriminate.
      apply bind_Ok in H as (g & M & H). apply bind_Ok in H as (g' & M' & _). wfs.
      eapply (rule "gd"); [reflexivity|]. eapply (alt 7); [reflexivity|].
      destruct (String.eqb_spec s "=") as [->|Ne]; [eapply equal_rule; eauto|]. apply (seq_of _ [["("]; [s]; ww x; ww y; [")"]]); [|words].
      pieces; try (eapply f_exp_rule; eauto; fail).
      assert (Bc : Aw (Alt [T "GREATER_OP"; T "LESSER_OP"; T "GREATER_EQUAL_OP"; T "LESSER_EQUAL_OP"]) [s]).
      { clear - K Ne. unfold comparison in K.
        destruct (String.eqb_spec s ">=") as [->|]; [eapply (alt 2); [reflexivity|lits]|].
        destruct (String.eqb_spec s ">") as [->|]; [eapply (alt 0); [reflexivity|lits]|].
        destruct (String.eqb_spec s "<=") as [->|]; [eapply (alt 3); [reflexivity|lits]|].
        destruct (String.eqb_spec s "<") as [->|]; [eapply (alt 1); [reflexivity|lits]|].
        destruct (String.eqb_spec s "=") as [->|]; [contradiction|discriminate]. }
      destruct Bc as (w & Ew & Kw). exists w. split; [exact Ew|]. intros nx. destruct (Kw nx) as [cs T]. eexists.
      eapply P_N; [apply In_rule; cbn; do 1 right; left; reflexivity|intros ? ? []|exact T].
  Qed.
  Lemma emptyor_pregd_rule s f : emptyor_pregd c s = Ok f -> wf s -> Aw (N "emptyor_pregd") (ww s).
  Proof.
    intros H W. eapply (rule "emptyor_pregd"); [reflexivity|]. destruct s as [t|[|x l]]; [discriminate| |].
    - eapply (alt 0); [reflexivity|]. apply (seq_of _ [["("]; [")"]]); [|reflexivity]. pieces.
    - eapply (alt 1); [reflexivity|]. eapply gd_rule; eauto.
  Qed.
  (** * Effects *)
  Lemma assign_In s k : assign_op s = Some k -> In s p_words.
  Proof.
    unfold assign_op. repeat match goal with |- context [String.eqb s ?x] => destruct (String.eqb_spec s x) as [->|] end; try discriminate; intros _; cbn; tauto.
  Qed.
  Lemma assign_not s : assign_op s = None -> s <> "not" -> ~ In s p_words.
  Proof.
    unfold assign_op. repeat match goal with |- context [String.eqb s ?x] => destruct (String.eqb_spec s x) as [->|] end; try discriminate; intros _ ?; notin.
  Qed.
  Lemma p_effect_rule pe a p t s f : rl pe = Some (p_effect_at a) -> rl a = Some (atomic_at p) -> rl p = Some (T t) -> base t = "NAME" ->
    (forall n args, s = SList (SAtom (TWord n) :: args) -> In n (taken t) -> In n p_words) ->
    p_effect c s = Ok f -> wf s -> Aw (N pe) (ww s).
  Proof.
    intros Re Ra Rp Bt Ot H W. eapply rule; [exact Re|]. unfold p_effect_at.
    assert (At : atomic_formula_term c s = Ok f -> (forall n args, s = SList (SAtom (TWord n) :: args) -> ~ In n (taken t)) -> Aw (N a) (ww s)) by (intros E Nt; eapply atomic_rule; eauto).
    destruct s as [t0|[|[[]|] args]]; try discriminate.
    - cbn [p_effect] in H. destruct (String.eqb_spec s "not") as [->|Nn].
      { destruct args as [|x [|]]; try discriminate. apply bind_Ok in H as (g & M & _). wfs. eapply (alt 0); [reflexivity|].
        apply (seq_of _ [["("]; ["not"]; ww x; [")"]]); [|words]. pieces. eapply (atomic_rule "atomic_formula_term" "predicate" "NAME"); eauto. }
      destruct (assign_op s) as [k|] eqn:K.
      2:{ eapply (alt 1); [reflexivity|]. apply At; [exact H|]. intros n args' E I. injection E as <- <-. eapply assign_not; eauto. }
      destruct args as [|x [|y [|]]]; try discriminate. apply bind_Ok in H as (g & M & H). apply bind_Ok in H as (g' & M' & _). wfs.
      eapply (alt 2); [reflexivity|]. eapply (rule "num_effect"); [reflexivity|]. apply (seq_of _ [["("]; [s]; ww x; ww y; [")"]]); [|words].
      pieces; [|eapply f_head_rule; eauto|eapply f_exp_rule; eauto].
      eapply (rule "assign_op"); [reflexivity|]. clear - K. unfold assign_op in K.
      destruct (String.eqb_spec s "assign") as [->|]; [eapply (alt 0); [reflexivity|lits]|].
      destruct (String.eqb_spec s "scale-up") as [->|]; [eapply (alt 1); [reflexivity|lits]|].
      destruct (String.eqb_spec s "scale-down") as [->|]; [eapply (alt 2); [reflexivity|lits]|].
      destruct (String.eqb_spec s "increase") as [->|]; [eapply (alt 3); [reflexivity|lits]|].
      destruct (String.eqb_spec s "decrease") as [->|]; [eapply (alt 4); [reflexivity|lits]|discriminate].
    - eapply (alt 1); [reflexivity|]. apply At; [exact H|discriminate].
  Qed.
  Lemma cond_effect_rule s f : cond_effect c s = Ok f -> wf s -> Aw (N "cond_effect") (ww s).
  Proof.
    intros H W. eapply (rule "cond_effect"); [reflexivity|].
    assert (Pe : p_effect c s = Ok f -> (forall args, s <> SList (SAtom (TWord "and") :: args)) -> Aw (N "p_effect@cond") (ww s)).
    { intros E Na. eapply (p_effect_rule "p_effect@cond" "atomic_formula_term@cond" "predicate@cond" "NAME@cond"); eauto.
      intros n args -> [<-|I]; [exfalso; eapply Na; reflexivity|exact I]. }
    destruct s as [t|[|[[]|] args]]; try discriminate.
    - cbn [cond_effect] in H. destruct (String.eqb_spec s "and") as [->|]; [|eapply (alt 1); [reflexivity|]; apply Pe; [auto|congruence]].
      apply bind_Ok in H as (fs & M & _). wfs. eapply (alt 0); [reflexivity|].
      apply (seq_of _ [["("]; ["and"]; wl args; [")"]]); [|words]. pieces. apply star_all.
      eapply mapR_rule; eauto. apply Forall_forall. intros x _ y E Wx. eapply (p_effect_rule "p_effect@p" "atomic_formula_term@p" "predicate@p" "NAME@p"); eauto.
    - eapply (alt 1); [reflexivity|]. apply Pe; [auto|discriminate].
  Qed.
  Lemma effect_rule s : forall top f, effect c top s = Ok f -> wf s -> Aw (N (if top then "effect" else "c_effect")) (ww s).
  Proof.
    induction s as [t|l IH] using sexp_ind'; intros top f H W; [discriminate|].
    assert (Up : Aw (c_effect_at (if top then "p_effect@effect" else "p_effect@c_effect")) (ww (SList l)) -> Aw (N (if top then "effect" else "c_effect")) (ww (SList l))).
    { destruct top; intros E; [|eapply rule; [reflexivity|exact E]]. eapply (rule "effect"); [reflexivity|]. eapply (alt 1); [reflexivity|]. eapply rule; [reflexivity|exact E]. }
    assert (Pe : p_effect c (SList l) = Ok f -> (forall n args, l = SAtom (TWord n) :: args -> In n (if top then effect_words else c_words) -> In n p_words) ->
      Aw (N (if top then "effect" else "c_effect")) (ww (SList l))).
    { intros E Ot. apply Up. eapply (alt 3); [reflexivity|].
      destruct top; [eapply (p_effect_rule "p_effect@effect" "atomic_formula_term@effect" "predicate@effect" "NAME@effect")
                    |eapply (p_effect_rule "p_effect@c_effect" "atomic_formula_term@c_effect" "predicate@c_effect" "NAME@c_effect")];
        eauto; intros n args Eq; injection Eq as ->; eauto. }
    destruct l as [|[[]|] args]; try discriminate; inversion IH as [|? ? _ IH']; subst; clear IH; [|apply Pe; [exact H|discriminate]].
    cbn [effect] in H. destruct (top && String.eqb s "and") eqn:Q.
    { apply andb_true_iff in Q as [-> Q]. apply String.eqb_eq in Q. subst. apply bind_Ok in H as (fs & M & _). wfs.
      eapply (rule "effect"); [reflexivity|]. eapply (alt 0); [reflexivity|]. apply (seq_of _ [["("]; ["and"]; wl args; [")"]]); [|words].
      pieces. apply star_all. eapply mapR_rule; eauto. eapply Forall_impl; [|exact IH']. intros x Hx y. apply (Hx false). }
    destruct (String.eqb_spec s "forall") as [->|N1].
    { destruct args as [|[|vs] [|x [|]]]; try discriminate. apply bind_Ok in H as (tl & V & H). apply bind_Ok in H as (g & M & _).
      inversion IH' as [|? ? _ IH1]; subst. inversion IH1 as [|? ? Ix _]; subst. wfs.
      match goal with H : wfl vs |- _ => rename H into Wv end. match goal with H : wf x |- _ => rename H into Wx end.
      destruct (HC _ _ V) as (ts & Tv). pose proof (typed_vars_rule _ _ Tv Wv) as Dv. pose proof (Ix true _ M Wx) as Dx.
      apply Up. eapply (alt 0); [reflexivity|].
      apply (seq_of _ [["("]; ["forall"]; ["("]; wl vs; [")"]; ww x; [")"]]); [|words]. pieces. }
    destruct (String.eqb_spec s "when") as [->|N2].
    { destruct args as [|x [|y [|]]]; try discriminate. apply bind_Ok in H as (g & M & H). apply bind_Ok in H as (g' & M' & _). wfs.
      apply Up. eapply (alt 1); [reflexivity|]. apply (seq_of _ [["("]; ["when"]; ww x; ww y; [")"]]); [|words].
      pieces; [eapply gd_rule; eauto|eapply cond_effect_rule; eauto]. }
    destruct (String.eqb_spec s "oneof") as [->|N3].
    2:{ apply Pe; [exact H|]. intros n args' E. injection E as <- <-. destruct top; cbn in Q; [apply String.eqb_neq in Q|]; cbn; intuition congruence. }
    assert (X : args <> [] /\ exists fs, mapR (effect c true) args = Ok fs).
    { destruct args; [discriminate|]. split; [discriminate|]. apply bind_Ok in H as (fs & M & _). eauto. }
    destruct X as (N0 & fs & M). wfs. apply Up. eapply (alt 2); [reflexivity|].
    apply (seq_of _ [["("]; ["oneof"]; wl args; [")"]]); [|words]. pieces. apply plus_all; auto. eapply mapR_rule; eauto.
    eapply Forall_impl; [|exact IH']. intros x Hx y. apply (Hx true).
  Qed.
  Lemma emptyor_effect_rule s f : emptyor_effect c s = Ok f -> wf s -> Aw (N "emptyor_effect") (ww s).
  Proof.
    intros H W. eapply (rule "emptyor_effect"); [reflexivity|]. destruct s as [t|[|x l]]; [discriminate| |].
    - eapply (alt 0); [reflexivity|]. apply (seq_of _ [["("]; [")"]]); [|reflexivity]. pieces.
    - eapply (alt 1); [reflexivity|]. apply (effect_rule _ true f); auto.
  Qed.
End Conditions.
