(** What the parsers accept is derived from the grammar (Spec_Grammar.derives). *)
From Coq Require Import String Ascii List Bool NArith Arith Lia.
From Verif Require Import Py Names Reqs Logic Core Lexer TypedList Parser Spec_Parse Py_facts Names_facts Lex_facts
     Parse_facts GD_facts Text_facts Domain_facts Spec_Grammar Words_facts.
Import ListNotations.
Open Scope string_scope.
Open Scope list_scope.

(** * Derivations *)
Notation D := (derives lexeme rules).
Lemma rule n e ws : assoc n rules = Some e -> D e ws -> D (N n) ws.
Proof. intros H. apply D_N. now apply assoc_In. Qed.
Lemma lit t w : assoc t terminals = Some (Lit w) -> D (T t) [w].
Proof. intros H. apply D_T. exists (Lit w). split; [now apply assoc_In|reflexivity]. Qed.
Lemma name w : matches Name w -> D (T "NAME") [w].
Proof. intros H. apply D_T. exists Name. split; [now left|auto]. Qed.
Lemma numb w : number w -> D (T "NUMBER") [w].
Proof. intros H. apply D_T. exists Number. split; [apply assoc_In; reflexivity|auto]. Qed.
Lemma seq_of l wss ws : Forall2 D l wss -> ws = concat wss -> D (Seq l) ws.
Proof. intros H ->. induction H; cbn; constructor; auto. Qed.
Lemma alt k l e ws : nth_error l k = Some e -> D e ws -> D (Alt l) ws.
Proof. intros H. apply D_Alt. eapply nth_error_In; eauto. Qed.

(** the words of trees *)
Definition ww (s : sexp) : list string := map spell (flat s).
Definition wl (l : list sexp) : list string := map spell (flat_map flat l).
Lemma wl_nil : wl [] = [].
Proof. reflexivity. Qed.
Lemma wl_cons x l : wl (x :: l) = ww x ++ wl l.
Proof. unfold wl, ww. cbn [flat_map]. apply map_app. Qed.
Lemma ww_list l : ww (SList l) = "(" :: wl l ++ [")"].
Proof. unfold ww, wl. cbn [flat map spell]. f_equal. apply map_app. Qed.
Lemma ww_atom t : ww (SAtom t) = [spell t].
Proof. reflexivity. Qed.
Lemma star_of e l : Forall (fun x => D e (ww x)) l -> D (Star e) (wl l).
Proof. induction 1; rewrite ?wl_cons; constructor; auto. Qed.
Lemma plus_of e l : l <> [] -> Forall (fun x => D e (ww x)) l -> D (Plus e) (wl l).
Proof. intros N0 H. destruct H; [contradiction|]. rewrite wl_cons. constructor; auto. now apply star_of. Qed.
Lemma star_plus e ws : D (Star e) ws -> ws <> [] -> D (Plus e) ws.
Proof. intros H N0. inversion H; subst; [contradiction|]. now constructor. Qed.
Lemma plus_star e ws : D (Plus e) ws -> D (Star e) ws.
Proof. intros H. inversion H; subst. now constructor. Qed.

(** tokens whose text has the right form *)
Definition twf (t : token) : Prop :=
  match t with
  | TWord n => matches Name n
  | TNum n => number n
  | TKw k => In k colon_keywords
  | _ => True
  end.
Definition wf (s : sexp) : Prop := Forall twf (flat s).
Definition wfl (l : list sexp) : Prop := Forall twf (flat_map flat l).
Lemma wfl_cons x l : wfl (x :: l) <-> wf x /\ wfl l.
Proof. unfold wfl, wf. cbn [flat_map]. apply Forall_app. Qed.
Lemma wf_list l : wf (SList l) <-> wfl l.
Proof.
  unfold wfl, wf. cbn [flat]. split; intros H.
  - inversion H as [|? ? _ H']; subst. now apply Forall_app in H'.
  - constructor; [exact Logic.I|]. apply Forall_app. split; auto. constructor; auto. exact Logic.I.
Qed.
Lemma wf_atom t : wf (SAtom t) <-> twf t.
Proof. unfold wf. cbn. split; [now inversion 1|now constructor]. Qed.
Lemma wfl_Forall l : wfl l <-> Forall wf l.
Proof.
  induction l as [|x l IH]; [unfold wfl; cbn; split; constructor|]. rewrite wfl_cons, IH. split; [intros []; now constructor|now inversion 1].
Qed.
Ltac wfs := repeat match goal with
  | H : wf (SList _) |- _ => apply wf_list in H
  | H : wfl (_ :: _) |- _ => apply wfl_cons in H as [? H]
  | H : wf (SAtom _) |- _ => apply wf_atom in H; cbn [twf] in H
  end.
(** ** the lexer's words have the right form *)
Definition qwf (q : lstate) : Prop :=
  match q with
  | QWord s => matches Name s
  | QNum s | QDot s => number s
  | _ => True
  end.
Lemma flush_wf q : qwf q -> Forall twf (flush q).
Proof.
  destruct q; cbn; intros H; repeat apply Forall_cons; try apply Forall_nil; cbn; auto.
  unfold kw_token. destruct (memb String.eqb s colon_keywords) eqn:E; cbn [twf]; auto. now apply memb_string_In.
Qed.
Lemma start_wf c : qwf (fst (start c)) /\ Forall twf (snd (start c)).
Proof.
  unfold start. destruct (is_space c); [cbn; auto|]. destruct (chr 59 c); [cbn; auto|].
  repeat match goal with |- context [if ?b then _ else _] => destruct b eqn:?; [split; [try exact Logic.I|repeat apply Forall_cons; try apply Forall_nil; exact Logic.I]|] end.
  - exists c, "". split; auto. split; [now apply letter_spec|constructor].
  - apply Num_int; [apply Each_cons; [now apply digit_spec|constructor]|discriminate].
  - cbn. repeat constructor.
Qed.
Lemma restart_wf q c : qwf q -> qwf (fst (restart q c)) /\ Forall twf (snd (restart q c)).
Proof.
  intros H. unfold restart. pose proof (start_wf c) as [H1 H2]. destruct (start c) as [q' ts]. cbn in *. split; auto. apply Forall_app. split; auto. now apply flush_wf.
Qed.
Lemma step_wf q c : qwf q -> qwf (fst (lstep q c)) /\ Forall twf (snd (lstep q c)).
Proof.
  intros H. destruct q; cbn [lstep].
  - apply start_wf.
  - destruct (is_name_char c) eqn:E; [|now apply restart_wf]. cbn. split; auto. destruct H as (a & r & -> & H1 & H2).
    exists a, (r +++ str1 c). split; auto. split; auto. apply each_app. split; auto. apply Each_cons; [now apply name_char_spec|constructor].
  - destruct (is_digit c) eqn:E; [|destruct (chr 46 c); [cbn; auto|now apply restart_wf]]. cbn. split; auto. apply number_snoc; auto. now apply digit_spec.
  - destruct (is_digit c) eqn:E; [|now apply restart_wf]. cbn [fst snd qwf]. split; auto. apply number_dot; auto; [apply Each_cons; [now apply digit_spec|constructor]|discriminate].
  - destruct (is_name_char c); [cbn; auto|now apply restart_wf].
  - destruct (chr 61 c); [cbn; repeat constructor|now apply restart_wf].
  - destruct (chr 61 c); [cbn; repeat constructor|now apply restart_wf].
  - destruct (chr 10 c); cbn; auto.
Qed.
Lemma lex_wf s : Forall twf (lex s).
Proof.
  assert (X : forall s q, qwf q -> Forall twf (lex_from q s)).
  { clear s. induction s as [|c s IH]; intros q H; cbn [lex_from]; [now apply flush_wf|]. pose proof (step_wf q c H) as [H1 H2].
    destruct (lstep q c) as [q' ts]. cbn in *. apply Forall_app. auto. }
  apply X. exact Logic.I.
Qed.
Lemma read_inv ts l : read ts = Some l -> ts = flat_map flat l.
Proof.
  assert (X : forall ts stack out l, read_from stack out ts = Some l ->
     flat_map (fun o => flat_map flat (rev o) ++ [LPAR]) (rev stack) ++ flat_map flat (rev out) ++ ts = flat_map flat l).
  { clear ts l. induction ts as [|t ts IH]; intros stack out l H; cbn [read_from] in H.
    - destruct stack; [|discriminate]. injection H as <-. cbn. now rewrite app_nil_r.
    - assert (A : read_from stack (SAtom t :: out) ts = Some l ->
        flat_map (fun o => flat_map flat (rev o) ++ [LPAR]) (rev stack) ++ flat_map flat (rev out) ++ t :: ts = flat_map flat l).
      { intros E. rewrite <- (IH _ _ _ E). f_equal. cbn [rev]. rewrite flat_map_app. cbn [flat_map flat]. rewrite !app_nil_r, <- app_assoc. reflexivity. }
      destruct t; try (apply A; exact H); clear A.
      + rewrite <- (IH _ _ _ H). cbn [rev flat_map app]. rewrite flat_map_app. cbn [flat_map]. rewrite app_nil_r, <- !app_assoc. reflexivity.
      + destruct stack as [|up stack]; [discriminate|]. rewrite <- (IH _ _ _ H). cbn [rev]. rewrite !flat_map_app. cbn [flat_map flat]. rewrite ?app_nil_r, <- ?app_assoc. cbn [app]. rewrite <- ?app_assoc. reflexivity. }
  intros H. exact (X ts [] [] l H).
Qed.

(** derived words are words *)
Lemma D_words e ws : D e ws -> Forall Spec_Grammar.word ws.
Proof.
  induction 1; try (apply Forall_app; split); auto. constructor; auto. exists t. auto.
Qed.
Lemma word_nonempty : ~ Spec_Grammar.word "".
Proof.
  intros W. apply word_tok in W as [_ W]. apply W. reflexivity.
Qed.

(** * One lemma per rule *)
Ltac words := repeat rewrite ?ww_list, ?wl_cons, ?ww_atom, ?wl_nil; cbn [concat app spell]; repeat (rewrite ?app_nil_r, <- ?app_assoc; cbn [app]); try reflexivity.
Ltac lits := first [apply lit; reflexivity | apply name; assumption | apply numb; assumption | assumption].

Ltac pieces := repeat apply Forall2_cons; try apply Forall2_nil; try lits.

Lemma variable_rule n : matches Name n -> D (N "variable") ["?"; n].
Proof.
  intros H. eapply (rule "variable"); [reflexivity|]. apply (seq_of _ [["?"]; [n]]); [|reflexivity]. pieces.
Qed.
Lemma primitive_rule n : matches Name n -> D (N "primitive_type") [n].
Proof. intros H. eapply (rule "primitive_type"); [reflexivity|]. eapply (alt 0); [reflexivity|]. lits. Qed.
Lemma words_wf l gs : mapO Parser.word l = Some gs -> wfl l -> wl l = gs /\ Forall (matches Name) gs.
Proof.
  intros H W. apply mapO_word_inv in H. subst. induction gs as [|g gs IH]; [split; [reflexivity|constructor]|].
  cbn [map] in *. apply wfl_cons in W as [W1 W2]. unfold name_sx in *. wfs. destruct (IH W2) as [I1 I2]. rewrite wl_cons, ww_atom, I1. split; [reflexivity|now constructor].
Qed.
Lemma names_star gs : Forall (matches Name) gs -> D (Star (T "NAME")) gs.
Proof. induction 1 as [|g gs H _ IH]; [constructor|]. apply (D_Star_cons _ _ _ [g] gs); auto. lits. Qed.
Lemma type_def_rule s gs : type_def s = Some gs -> wf s -> D (N "type_def") (ww s).
Proof.
  intros H W. eapply (rule "type_def"); [reflexivity|]. destruct s as [[]|[|[[]|] ts]]; try discriminate.
  - wfs. eapply (alt 1); [reflexivity|]. now apply primitive_rule.
  - cbn [type_def] in H. destruct (String.eqb_spec s "either") as [->|]; [|discriminate].
    assert (M : ts <> [] /\ mapO Parser.word ts = Some gs) by (destruct ts; [discriminate|split; [discriminate|exact H]]). destruct M as [N0 M]. wfs.
    destruct (words_wf _ _ M W) as [E F]. eapply (alt 0); [reflexivity|]. apply (seq_of _ [["("]; ["either"]; gs; [")"]]).
    + apply Forall2_cons; [lits|]. apply Forall2_cons; [lits|]. apply Forall2_cons; [|pieces]. clear - F N0 M.
      assert (gs <> []) by (destruct gs; [apply mapO_word_inv in M; subst; contradiction|discriminate]).
      apply star_plus; auto. clear - F. induction F; [constructor|]. apply (D_Star_cons _ _ _ [x] l); auto. now apply primitive_rule.
    + words. now rewrite E.
Qed.

(** ** typed lists *)
Section TL.
  Variables (V TD : sym).
  Definition group : sym := Seq [Plus V; T "TYPE_SEP"; TD].
  Definition P (seen : bool) (ws : list string) : Prop :=
    D (Star V) ws \/
    exists v t g r, ws = v ++ "-" :: t ++ g ++ r /\ (if seen then D (Star V) v else D (Plus V) v) /\ D TD t /\ D (Star group) g /\ D (Star V) r.
  Lemma P_nil seen : P seen [].
  Proof. left. constructor. Qed.
  Lemma P_item seen u ws : D V u -> P true ws -> P seen (u ++ ws).
  Proof.
    intros H [S|(v & t & g & r & -> & S1 & S2 & S3 & S4)].
    - left. now constructor.
    - right. exists (u ++ v), t, g, r. rewrite <- app_assoc. repeat split; auto. destruct seen; now constructor.
  Qed.
  Lemma group_of v t : D (Plus V) v -> D TD t -> D group (v ++ "-" :: t).
  Proof. intros H1 H2. apply (seq_of _ [v; ["-"]; t]); [pieces; auto|]. cbn. now rewrite app_nil_r. Qed.
  Lemma P_sep t ws : D TD t -> P false ws -> P true ("-" :: t ++ ws).
  Proof.
    intros H [S|(v & t' & g & r & -> & S1 & S2 & S3 & S4)]; right.
    - exists [], t, [], ws. repeat split; auto; constructor.
    - exists [], t, ((v ++ "-" :: t') ++ g), r. split; [cbn; rewrite <- !app_assoc; cbn; rewrite <- ?app_assoc; reflexivity|].
      split; [constructor|]. split; auto. split; auto. constructor; auto. now apply group_of.
  Qed.
  Lemma P_done ws : P false ws -> D (Alt [Star V; Seq [Plus group; Star V]]) ws.
  Proof.
    intros [S|(v & t & g & r & -> & S1 & S2 & S3 & S4)].
    - eapply (alt 0); [reflexivity|]. exact S.
    - eapply (alt 1); [reflexivity|]. apply (seq_of _ [(v ++ "-" :: t) ++ g; r]).
      + constructor; [apply D_Plus; auto; now apply group_of|]. pieces.
      + cbn. rewrite app_nil_r, <- !app_assoc. cbn. rewrite <- ?app_assoc. reflexivity.
  Qed.
  Lemma P_done_plus ws : ws <> [] -> P false ws -> D (Alt [Plus V; Seq [Plus group; Star V]]) ws.
  Proof.
    intros N0 [S|S].
    - eapply (alt 0); [reflexivity|]. now apply star_plus.
    - pose proof (P_done ws (or_intror S)) as H. eapply (alt 1); [reflexivity|]. destruct S as (v & t & g & r & -> & S1 & S2 & S3 & S4).
      apply (seq_of _ [(v ++ "-" :: t) ++ g; r]).
      + constructor; [apply D_Plus; auto; now apply group_of|]. pieces.
      + cbn. rewrite app_nil_r, <- !app_assoc. cbn. rewrite <- ?app_assoc. reflexivity.
  Qed.
End TL.
Lemma tl_vars_rule l : forall seen ts, tl_vars seen l = Some ts -> wfl l -> P (N "variable") (N "type_def") seen (wl l).
Proof.
  remember (length l) as n. assert (Hn : length l <= n) by lia. clear Heqn. revert l Hn.
  induction n as [|n IH]; intros l Hn seen ts H W; (destruct l as [|x [|y r]]; [apply P_nil| |]); try (cbn in Hn; lia).
  1: destruct x as [[]|]; discriminate.
  cbn in Hn. apply wfl_cons in W as [W1 W]. apply wfl_cons in W as [W2 W]. destruct x as [[]|]; try discriminate.
  - destruct y as [[]|]; try discriminate. cbn [tl_vars] in H. destruct (tl_vars true r) eqn:E; [|discriminate].
    rewrite !wl_cons, !ww_atom. cbn [spell app]. apply (P_item _ _ _ ["?"; s]); [apply variable_rule; now wfs|]. eapply IH; eauto. lia.
  - cbn [tl_vars] in H. destruct (String.eqb_spec s "-") as [->|]; [|discriminate]. destruct seen; [|discriminate]. cbn [andb] in H.
    destruct (type_def y) eqn:E1; [|discriminate]. destruct (tl_vars false r) eqn:E2; [|discriminate].
    rewrite !wl_cons, ww_atom. cbn [spell app]. apply P_sep; [eapply type_def_rule; eauto|]. eapply IH; eauto. lia.
Qed.
Lemma typed_vars_rule l ts : tl_vars false l = Some ts -> wfl l -> D (N "typed_list_variable") (wl l).
Proof. intros H W. eapply (rule "typed_list_variable"); [reflexivity|]. apply P_done. eapply tl_vars_rule; eauto. Qed.
Lemma tl_names_rule l : forall seen ts, tl_names seen l = Some ts -> wfl l -> P (T "NAME") (N "primitive_type") seen (wl l).
Proof.
  remember (length l) as n. assert (Hn : length l <= n) by lia. clear Heqn. revert l Hn.
  induction n as [|n IH]; intros l Hn seen ts H W; (destruct l as [|x r]; [apply P_nil|]); [cbn in Hn; lia|].
  cbn in Hn. apply wfl_cons in W as [W1 W]. destruct x as [[]|]; try discriminate.
  - cbn [tl_names] in H. destruct (tl_names true r) eqn:E; [|discriminate].
    rewrite !wl_cons, !ww_atom. cbn [spell]. apply P_item; [wfs; lits|]. eapply IH; eauto. lia.
  - destruct r as [|[[]|] r]; try discriminate. cbn [tl_names] in H. destruct (String.eqb_spec s "-") as [->|]; [|discriminate]. destruct seen; [|discriminate]. cbn [andb] in H.
    destruct (object_next r); [discriminate|]. cbn [negb] in H. destruct (tl_names false r) eqn:E2; [|discriminate]. wfs.
    rewrite !wl_cons, !ww_atom. cbn [spell app]. apply (P_sep _ _ [s0]); [now apply primitive_rule|]. eapply IH; eauto. cbn in Hn. lia.
Qed.
Lemma typed_names_rule l ts : tl_names false l = Some ts -> wfl l -> D (N "typed_list_name") (wl l).
Proof. intros H W. eapply (rule "typed_list_name"); [reflexivity|]. apply P_done. eapply tl_names_rule; eauto. Qed.

Lemma typed_list_variable_tl l tl : typed_list_variable l = Ok tl -> exists ts, tl_vars false l = Some ts.
Proof. unfold typed_list_variable. destruct (tl_vars false l); [eauto|discriminate]. Qed.
Lemma typed_list_name_tl l tl : typed_list_name l = Ok tl -> exists ts, tl_names false l = Some ts.
Proof. unfold typed_list_name. destruct (tl_names false l); [eauto|discriminate]. Qed.

(** ** terms, atoms and numeric expressions *)
Lemma terms_rule l : forall ps, terms l = Some ps -> wfl l -> D (Star (N "term")) (wl l).
Proof.
  remember (length l) as n. assert (Hn : length l <= n) by lia. clear Heqn. revert l Hn.
  induction n as [|n IH]; intros l Hn ps H W; (destruct l as [|x r]; [constructor|]); [cbn in Hn; lia|].
  cbn in Hn. apply wfl_cons in W as [W1 W]. destruct x as [[]|]; try discriminate.
  - destruct r as [|[[]|] r]; try discriminate. cbn [terms] in H. destruct (terms r) eqn:E; [|discriminate]. wfs.
    rewrite !wl_cons, !ww_atom. cbn [spell app]. apply (D_Star_cons _ _ _ ["?"; s]); [|eapply IH; eauto; cbn in Hn; lia].
    eapply (rule "term"); [reflexivity|]. eapply (alt 1); [reflexivity|]. now apply variable_rule.
  - cbn [terms] in H. destruct (terms r) eqn:E; [|discriminate]. wfs.
    rewrite !wl_cons, !ww_atom. cbn [spell]. constructor; [|eapply IH; eauto; lia].
    eapply (rule "term"); [reflexivity|]. eapply (alt 0); [reflexivity|]. eapply (rule "constant"); [reflexivity|]. lits.
Qed.
Lemma two_terms_rule l a b : terms l = Some [a; b] -> wfl l -> exists u v, wl l = u ++ v /\ D (N "term") u /\ D (N "term") v.
Proof.
  assert (One : forall l p ps, terms l = Some (p :: ps) -> wfl l -> exists u r, wl l = u ++ wl r /\ D (N "term") u /\ terms r = Some ps /\ wfl r).
  { clear. intros l p ps H W. destruct l as [|x r]; [discriminate|]. apply wfl_cons in W as [W1 W]. destruct x as [[]|]; try discriminate.
    - destruct r as [|[[]|] r]; try discriminate. cbn [terms] in H. destruct (terms r) eqn:E; [|discriminate]. wfs. injection H as _ <-.
      exists ["?"; s], r. split; [rewrite !wl_cons, !ww_atom; reflexivity|]. split; [|auto].
      eapply (rule "term"); [reflexivity|]. eapply (alt 1); [reflexivity|]. now apply variable_rule.
    - cbn [terms] in H. destruct (terms r) eqn:E; [|discriminate]. wfs. injection H as _ <-.
      exists [s], r. split; [rewrite !wl_cons, !ww_atom; reflexivity|]. split; [|auto].
      eapply (rule "term"); [reflexivity|]. eapply (alt 0); [reflexivity|]. eapply (rule "constant"); [reflexivity|]. lits. }
  intros H W. destruct (One _ _ _ H W) as (u & r & E & Du & H' & W'). destruct (One _ _ _ H' W') as (v & r' & E' & Dv & H'' & W'').
  destruct r' as [|z r']; [|destruct z as [[]|]; try discriminate; cbn [terms] in H''; [destruct r' as [|[[]|] ?]; try discriminate|]; match type of H'' with context [terms ?q] => destruct (terms q) end; discriminate H''].
  exists u, v. rewrite E, E', wl_nil, app_nil_r. auto.
Qed.
Lemma atomic_pred_rule c n args f : atomic_pred c n args = Ok f -> matches Name n -> wfl args -> D (N "atomic_formula_term") (ww (SList (SAtom (TWord n) :: args))).
Proof.
  intros H M W. unfold atomic_pred in H. destruct (terms args) as [ps|] eqn:E; [|discriminate].
  eapply (rule "atomic_formula_term"); [reflexivity|]. eapply (alt 0); [reflexivity|]. apply (seq_of _ [["("]; [n]; wl args; [")"]]); [|words].
  pieces; [eapply (rule "predicate"); [reflexivity|lits]|eapply terms_rule; eauto].
Qed.
Lemma atomic_eq_rule c args f : atomic_eq c args = Ok f -> wfl args -> D (N "atomic_formula_term") (ww (SList (SAtom (TOp "=") :: args))).
Proof.
  intros H W. unfold atomic_eq in H. destruct (terms args) as [[|a [|b [|]]]|] eqn:E; try discriminate.
  destruct (two_terms_rule _ _ _ E W) as (u & v & Ew & Du & Dv).
  eapply (rule "atomic_formula_term"); [reflexivity|]. eapply (alt 1); [reflexivity|]. apply (seq_of _ [["("]; ["="]; u; v; [")"]]); [|words; rewrite Ew, <- ?app_assoc; reflexivity].
  pieces.
Qed.
Lemma atomic_rule c s f : atomic_formula_term c s = Ok f -> wf s -> D (N "atomic_formula_term") (ww s).
Proof.
  intros H W. destruct s as [|[|[[]|] args]]; try discriminate; wfs.
  - eapply atomic_pred_rule; eauto.
  - cbn in H. destruct (String.eqb_spec s "=") as [->|]; [|discriminate]. eapply atomic_eq_rule; eauto.
Qed.
Lemma f_head_rule c s f : f_head c s = Ok f -> wf s -> D (N "f_head") (ww s).
Proof.
  intros H W. eapply (rule "f_head"); [reflexivity|]. destruct s as [[]|[|[[]|] args]]; try discriminate; wfs.
  - eapply (alt 0); [reflexivity|]. lits.
  - cbn [f_head] in H. destruct (terms args) as [ps|] eqn:E; [|discriminate].
    eapply (alt 1); [reflexivity|]. apply (seq_of _ [["("]; [s]; wl args; [")"]]); [|words].
    pieces. eapply terms_rule; eauto.
Qed.
(** the operators of [arith_op], for a rule [E] *)
Lemma arith_rule E o args k : arith_op o (length args) = Some k -> Forall (fun x => D E (ww x)) args ->
  D (Alt [Seq [L; N "binary_op"; E; E; R]; Seq [L; N "multi_op"; E; Plus E; R]; Seq [L; T "MINUS"; E; R]]) (ww (SList (SAtom (TOp o) :: args))).
Proof.
  intros H F. unfold arith_op in H.
  assert (Multi : (o = "+" \/ o = "*") -> 2 <= length args -> D (Alt [Seq [L; N "binary_op"; E; E; R]; Seq [L; N "multi_op"; E; Plus E; R]; Seq [L; T "MINUS"; E; R]]) (ww (SList (SAtom (TOp o) :: args)))).
  { intros O Ln. destruct args as [|x [|y r]]; cbn in Ln; try lia. inversion F as [|? ? F1 F2]; subst.
    eapply (alt 1); [reflexivity|]. apply (seq_of _ [["("]; [o]; ww x; wl (y :: r); [")"]]); [|words].
    apply Forall2_cons; [lits|]. apply Forall2_cons; [|constructor; [auto|constructor; [apply plus_of; [discriminate|auto]|pieces]]].
    eapply (rule "multi_op"); [reflexivity|]. destruct O as [->| ->]; [eapply (alt 1)|eapply (alt 0)]; try reflexivity; lits. }
  destruct (String.eqb_spec o "+") as [->|]; [destruct (Nat.leb_spec 2 (length args)); [auto|discriminate]|].
  destruct (String.eqb_spec o "*") as [->|]; [destruct (Nat.leb_spec 2 (length args)); [auto|discriminate]|].
  destruct (String.eqb_spec o "/") as [->|].
  { destruct args as [|x [|y [|]]]; try discriminate. inversion F as [|? ? F1 F2]; subst. inversion F2 as [|? ? F3 F4]; subst.
    eapply (alt 0); [reflexivity|]. apply (seq_of _ [["("]; ["/"]; ww x; ww y; [")"]]); [|words].
    apply Forall2_cons; [lits|]. apply Forall2_cons; [|pieces; auto]. eapply (rule "binary_op"); [reflexivity|]. eapply (alt 2); [reflexivity|]. lits. }
  destruct (String.eqb_spec o "-") as [->|]; [|discriminate].
  destruct args as [|x [|]]; try discriminate. inversion F as [|? ? F1 F2]; subst.
  eapply (alt 2); [reflexivity|]. apply (seq_of _ [["("]; ["-"]; ww x; [")"]]); [|words]. pieces; auto.
Qed.
Lemma alt_weaken l l' ws : (forall e, In e l -> In e l') -> D (Alt l) ws -> D (Alt l') ws.
Proof. intros I H. inversion H; subst. eapply D_Alt; eauto. Qed.
Lemma mapR_rule {B} (f : sexp -> res B) E args fs : mapR f args = Ok fs -> Forall (fun x => forall y, f x = Ok y -> wf x -> D E (ww x)) args -> wfl args ->
  Forall (fun x => D E (ww x)) args.
Proof.
  intros M F W. apply wfl_Forall in W. apply mapR_Ok in M. induction M; constructor; inversion F; inversion W; subst; eauto.
Qed.
Lemma f_exp_rule c s : forall f, f_exp c s = Ok f -> wf s -> D (N "f_exp") (ww s).
Proof.
  induction s as [t|l IH] using sexp_ind'; intros f H W.
  - eapply (rule "f_exp"); [reflexivity|]. destruct t; try discriminate.
    + eapply (alt 4); [reflexivity|]. apply (f_head_rule c _ f); auto.
    + wfs. eapply (alt 0); [reflexivity|]. eapply (rule "num_literal"); [reflexivity|]. lits.
  - eapply (rule "f_exp"); [reflexivity|]. destruct l as [|[[]|] args]; try discriminate.
    + eapply (alt 4); [reflexivity|]. apply (f_head_rule c _ f); auto.
    + cbn [f_exp] in H. destruct (arith_op s (length args)) as [k|] eqn:A; [|discriminate]. apply bind_Ok in H as (ops & M & _).
      inversion IH as [|? ? _ IH']; subst. wfs. pose proof (arith_rule (N "f_exp") s args k A (mapR_rule (f_exp c) (N "f_exp") args ops M IH' W)) as X.
      eapply alt_weaken; [|exact X]. cbn. tauto.
Qed.

(** ** conditions *)
Definition vars_ok (c : gctx) : Prop := forall vs tl, g_vars c vs = Ok tl -> exists ts, tl_vars false vs = Some ts.
Section Conditions.
  Variable c : gctx.
  Hypothesis HC : vars_ok c.
  Lemma gd_rule s : forall f, gd c s = Ok f -> wf s -> D (N "gd") (ww s).
  Proof.
    induction s as [t|l IH] using sexp_ind'; intros f H W; [discriminate|].
    destruct l as [|[[]|] args]; try discriminate; inversion IH as [|? ? _ IH']; subst; clear IH.
    - cbn [gd] in H. pose proof W as W0. wfs.
      assert (St : forall fs, mapR (gd c) args = Ok fs -> D (Star (N "gd")) (wl args)).
      { intros fs M. apply star_of. eapply mapR_rule; eauto. }
      destruct (String.eqb_spec s "or") as [->|].
      { apply bind_Ok in H as (fs & M & _). eapply (rule "gd"); [reflexivity|]. eapply (alt 1); [reflexivity|].
        apply (seq_of _ [["("]; ["or"]; wl args; [")"]]); [|words]. pieces; eauto. }
      destruct (String.eqb_spec s "not") as [->|].
      { destruct args as [|x [|]]; try discriminate. apply bind_Ok in H as (g & M & _). inversion IH'; subst. wfs. eapply (rule "gd"); [reflexivity|]. eapply (alt 2); [reflexivity|].
        apply (seq_of _ [["("]; ["not"]; ww x; [")"]]); [|words]. pieces; eauto. }
      destruct (String.eqb_spec s "and") as [->|].
      { apply bind_Ok in H as (fs & M & _). eapply (rule "gd"); [reflexivity|]. eapply (alt 3); [reflexivity|].
        apply (seq_of _ [["("]; ["and"]; wl args; [")"]]); [|words]. pieces; eauto. }
      destruct (String.eqb_spec s "imply") as [->|].
      { destruct args as [|x [|y [|]]]; try discriminate. apply bind_Ok in H as (g & M & H). apply bind_Ok in H as (g' & M' & _).
        inversion IH' as [|? ? Ix IH1]; subst. inversion IH1 as [|? ? Iy _]; subst. wfs. eapply (rule "gd"); [reflexivity|]. eapply (alt 4); [reflexivity|].
        apply (seq_of _ [["("]; ["imply"]; ww x; ww y; [")"]]); [|words]. pieces; eauto. }
      destruct (String.eqb s "exists" || String.eqb s "forall") eqn:Q.
      { destruct (if String.eqb s "exists" then (QExists, EXISTENTIAL_PRECONDITION) else (QForall, UNIVERSAL_PRECONDITION)) as [q r].
        destruct args as [|[|vs] [|x [|]]]; try discriminate. apply bind_Ok in H as (tl & V & H). apply bind_Ok in H as (g & M & _).
        inversion IH' as [|? ? _ IH1]; subst. inversion IH1 as [|? ? Ix _]; subst. wfs.
        match goal with H : wfl vs |- _ => rename H into Wv end. match goal with H : wf x |- _ => rename H into Wx end.
        destruct (HC _ _ V) as (ts & Tv). pose proof (typed_vars_rule _ _ Tv Wv) as Dv. pose proof (Ix _ M Wx) as Dx.
        eapply (rule "gd"); [reflexivity|].
        apply orb_true_iff in Q as [Q|Q]; apply String.eqb_eq in Q; subst; [eapply (alt 5)|eapply (alt 6)]; try reflexivity.
        - apply (seq_of _ [["("]; ["exists"]; ["("]; wl vs; [")"]; ww x; [")"]]); [|words]. pieces; auto.
        - apply (seq_of _ [["("]; ["forall"]; ["("]; wl vs; [")"]; ww x; [")"]]); [|words]. pieces; auto. }
      eapply (rule "gd"); [reflexivity|]. eapply (alt 0); [reflexivity|]. eapply atomic_pred_rule; eauto.
    - cbn [gd] in H. wfs. destruct (String.eqb s "=" && starts_term args) eqn:Q.
      { apply andb_true_iff in Q as [Q _]. apply String.eqb_eq in Q. subst. eapply (rule "gd"); [reflexivity|]. eapply (alt 0); [reflexivity|]. eapply atomic_eq_rule; eauto. }
      destruct (comparison s) as [k|] eqn:K; [|discriminate]. destruct args as [|x [|y [|]]]; try discriminate.
      apply bind_Ok in H as (g & M & H). apply bind_Ok in H as (g' & M' & _). wfs.
      eapply (rule "gd"); [reflexivity|]. eapply (alt 7); [reflexivity|]. apply (seq_of _ [["("]; [s]; ww x; ww y; [")"]]); [|words].
      apply Forall2_cons; [lits|]. apply Forall2_cons; [|pieces; eapply f_exp_rule; eauto].
      eapply (rule "binary_comp"); [reflexivity|]. clear - K. unfold comparison in K.
      destruct (String.eqb_spec s ">=") as [->|]; [eapply (alt 3); [reflexivity|lits]|].
      destruct (String.eqb_spec s ">") as [->|]; [eapply (alt 0); [reflexivity|lits]|].
      destruct (String.eqb_spec s "<=") as [->|]; [eapply (alt 4); [reflexivity|lits]|].
      destruct (String.eqb_spec s "<") as [->|]; [eapply (alt 1); [reflexivity|lits]|].
      destruct (String.eqb_spec s "=") as [->|]; [eapply (alt 2); [reflexivity|lits]|discriminate].
  Qed.
  Lemma emptyor_pregd_rule s f : emptyor_pregd c s = Ok f -> wf s -> D (N "emptyor_pregd") (ww s).
  Proof.
    intros H W. eapply (rule "emptyor_pregd"); [reflexivity|]. destruct s as [t|[|x l]]; [discriminate| |].
    - eapply (alt 0); [reflexivity|]. apply (seq_of _ [["("]; [")"]]); [|reflexivity]. pieces.
    - eapply (alt 1); [reflexivity|]. eapply gd_rule; eauto.
  Qed.
  (** ** effects *)
  Lemma p_effect_rule s f : p_effect c s = Ok f -> wf s -> D (N "p_effect") (ww s).
  Proof.
    intros H W. eapply (rule "p_effect"); [reflexivity|].
    assert (At : atomic_formula_term c s = Ok f -> D (N "atomic_formula_term") (ww s)) by (intros E; eapply atomic_rule; eauto).
    destruct s as [t|[|[[]|] args]]; try discriminate.
    - cbn [p_effect] in H. destruct (String.eqb_spec s "not") as [->|].
      { destruct args as [|x [|]]; try discriminate. apply bind_Ok in H as (g & M & _). wfs. eapply (alt 0); [reflexivity|].
        apply (seq_of _ [["("]; ["not"]; ww x; [")"]]); [|words]. pieces. eapply atomic_rule; eauto. }
      destruct (assign_op s) as [k|] eqn:K; [|eapply (alt 1); [reflexivity|]; auto].
      destruct args as [|x [|y [|]]]; try discriminate. apply bind_Ok in H as (g & M & H). apply bind_Ok in H as (g' & M' & _). wfs.
      eapply (alt 2); [reflexivity|]. eapply (rule "num_effect"); [reflexivity|]. apply (seq_of _ [["("]; [s]; ww x; ww y; [")"]]); [|words].
      apply Forall2_cons; [lits|]. apply Forall2_cons; [|pieces; [eapply f_head_rule; eauto|eapply f_exp_rule; eauto]].
      eapply (rule "assign_op"); [reflexivity|]. clear - K. unfold assign_op in K.
      destruct (String.eqb_spec s "assign") as [->|]; [eapply (alt 0); [reflexivity|lits]|].
      destruct (String.eqb_spec s "scale-up") as [->|]; [eapply (alt 1); [reflexivity|lits]|].
      destruct (String.eqb_spec s "scale-down") as [->|]; [eapply (alt 2); [reflexivity|lits]|].
      destruct (String.eqb_spec s "increase") as [->|]; [eapply (alt 3); [reflexivity|lits]|].
      destruct (String.eqb_spec s "decrease") as [->|]; [eapply (alt 4); [reflexivity|lits]|discriminate].
    - eapply (alt 1); [reflexivity|]. auto.
  Qed.
  Lemma cond_effect_rule s f : cond_effect c s = Ok f -> wf s -> D (N "cond_effect") (ww s).
  Proof.
    intros H W. eapply (rule "cond_effect"); [reflexivity|].
    assert (Pe : p_effect c s = Ok f -> D (N "p_effect") (ww s)) by (intros E; eapply p_effect_rule; eauto).
    destruct s as [t|[|[[]|] args]]; try discriminate.
    - cbn [cond_effect] in H. destruct (String.eqb_spec s "and") as [->|]; [|eapply (alt 1); [reflexivity|]; auto].
      apply bind_Ok in H as (fs & M & _). wfs. eapply (alt 0); [reflexivity|].
      apply (seq_of _ [["("]; ["and"]; wl args; [")"]]); [|words]. pieces. apply star_of.
      eapply mapR_rule; eauto. apply Forall_forall. intros x _ y E Wx. eapply p_effect_rule; eauto.
    - eapply (alt 1); [reflexivity|]. auto.
  Qed.
  Lemma effect_rule s : forall top f, effect c top s = Ok f -> wf s -> D (N (if top then "effect" else "c_effect")) (ww s).
  Proof.
    induction s as [t|l IH] using sexp_ind'; intros top f H W; [discriminate|].
    assert (Up : D (N "c_effect") (ww (SList l)) -> D (N (if top then "effect" else "c_effect")) (ww (SList l))).
    { destruct top; auto. intros E. eapply (rule "effect"); [reflexivity|]. eapply (alt 1); [reflexivity|]. exact E. }
    assert (Pe : p_effect c (SList l) = Ok f -> D (N (if top then "effect" else "c_effect")) (ww (SList l))).
    { intros E. apply Up. eapply (rule "c_effect"); [reflexivity|]. eapply (alt 3); [reflexivity|]. eapply p_effect_rule; eauto. }
    destruct l as [|[[]|] args]; try discriminate; inversion IH as [|? ? _ IH']; subst; clear IH; [|auto].
    cbn [effect] in H. destruct (top && String.eqb s "and") eqn:Q.
    { apply andb_true_iff in Q as [-> Q]. apply String.eqb_eq in Q. subst. apply bind_Ok in H as (fs & M & _). wfs.
      eapply (rule "effect"); [reflexivity|]. eapply (alt 0); [reflexivity|]. apply (seq_of _ [["("]; ["and"]; wl args; [")"]]); [|words].
      pieces. apply star_of. eapply mapR_rule; eauto. eapply Forall_impl; [|exact IH']. intros x Hx y. apply (Hx false). }
    clear Q. destruct (String.eqb_spec s "forall") as [->|].
    { destruct args as [|[|vs] [|x [|]]]; try discriminate. apply bind_Ok in H as (tl & V & H). apply bind_Ok in H as (g & M & _).
      inversion IH' as [|? ? _ IH1]; subst. inversion IH1 as [|? ? Ix _]; subst. wfs.
      match goal with H : wfl vs |- _ => rename H into Wv end. match goal with H : wf x |- _ => rename H into Wx end.
      destruct (HC _ _ V) as (ts & Tv). pose proof (typed_vars_rule _ _ Tv Wv) as Dv. pose proof (Ix true _ M Wx) as Dx.
      apply Up. eapply (rule "c_effect"); [reflexivity|]. eapply (alt 0); [reflexivity|].
      apply (seq_of _ [["("]; ["forall"]; ["("]; wl vs; [")"]; ww x; [")"]]); [|words]. pieces; auto. }
    destruct (String.eqb_spec s "when") as [->|].
    { destruct args as [|x [|y [|]]]; try discriminate. apply bind_Ok in H as (g & M & H). apply bind_Ok in H as (g' & M' & _). wfs.
      apply Up. eapply (rule "c_effect"); [reflexivity|]. eapply (alt 1); [reflexivity|]. apply (seq_of _ [["("]; ["when"]; ww x; ww y; [")"]]); [|words].
      pieces; [eapply gd_rule; eauto|eapply cond_effect_rule; eauto]. }
    destruct (String.eqb_spec s "oneof") as [->|]; [|auto].
    assert (X : args <> [] /\ exists fs, mapR (effect c true) args = Ok fs).
    { destruct args; [discriminate|]. split; [discriminate|]. apply bind_Ok in H as (fs & M & _). eauto. }
    destruct X as (N0 & fs & M). wfs. apply Up. eapply (rule "c_effect"); [reflexivity|]. eapply (alt 2); [reflexivity|].
    apply (seq_of _ [["("]; ["oneof"]; wl args; [")"]]); [|words]. pieces. apply plus_of; auto. eapply mapR_rule; eauto.
    eapply Forall_impl; [|exact IH']. intros x Hx y. apply (Hx true).
  Qed.
  Lemma emptyor_effect_rule s f : emptyor_effect c s = Ok f -> wf s -> D (N "emptyor_effect") (ww s).
  Proof.
    intros H W. eapply (rule "emptyor_effect"); [reflexivity|]. destruct s as [t|[|x l]]; [discriminate| |].
    - eapply (alt 0); [reflexivity|]. apply (seq_of _ [["("]; [")"]]); [|reflexivity]. pieces.
    - eapply (alt 1); [reflexivity|]. apply (effect_rule _ true f); auto.
  Qed.
End Conditions.
Lemma domain_vars_ok st : vars_ok (domain_ctx st).
Proof. intros vs tl H. eapply typed_list_variable_tl; eauto. Qed.
Lemma problem_vars_ok : vars_ok problem_ctx.
Proof. intros vs tl H. cbn in H. destruct (tl_vars false vs); [eauto|discriminate]. Qed.
