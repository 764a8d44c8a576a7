(** The tables of the three parsers pass the checks: their machines read exactly the trees of the
    productions of Spec_Lark.v. *)
From Coq Require Import String Ascii List Bool BinNat PArith FMapPositive Lia.
From Verif Require Import Py Names Lexer Lex_facts Spec_Grammar Lark LarkTables LarkCert Spec_Lark Py_facts Words_facts GrammarAll_facts LarkLR_facts LarkSound_facts.
Import ListNotations.
Open Scope string_scope.
Open Scope list_scope.
Local Notation "a +++ b" := (String.append a b) (at level 60, right associativity).

(** ** words *)
Lemma is_name_ok w : is_name w = true <-> matches Name w.
Proof.
  destruct w as [|c r]; cbn [is_name matches]; [split; [discriminate|intros (c & r & E & _); discriminate]|]. rewrite andb_true_iff, letter_spec, (each_chars _ _ _ name_char_spec). split.
  - intros [A B]. eauto.
  - intros (c' & r' & E & A & B). inversion E; subst. auto.
Qed.
Lemma dot_spec c : chr 46%N c = true <-> c = "."%char.
Proof. rewrite chr_spec. split; [intros H; now apply ascii_nat|intros ->; reflexivity]. Qed.
Lemma number_from_sound n : forall r p w r', String.length r <= n -> number p -> number_from r = (w, r') -> r = w +++ r' /\ number (p +++ w).
Proof.
  induction n as [|n IH]; intros [|c r] p w r' L P H; try (cbn in L; lia).
  1,2: inversion H; subst; split; [reflexivity|now rewrite append_nil_r].
  cbn in L. cbn [number_from] in H. destruct (is_digit c) eqn:DC.
  - destruct (number_from r) as [w1 r1] eqn:E. inversion H; subst. apply (IH r (p +++ str1 c)) in E; [|lia|apply number_snoc; [auto|now apply digit_spec]].
    destruct E as [-> E]. split; [reflexivity|]. rewrite append_assoc in E. exact E.
  - destruct (chr 46 c) eqn:DT.
    + apply dot_spec in DT as ->. destruct r as [|d r1]; [inversion H; subst; split; [reflexivity|now rewrite append_nil_r]|].
      destruct (is_digit d) eqn:DD.
      * destruct (number_from r1) as [w1 r2] eqn:E. inversion H; subst. cbn in L. apply (IH r1 (p +++ "." +++ str1 d)) in E; [|lia|apply number_dot; [auto|constructor; [now apply digit_spec|constructor]|discriminate]].
        destruct E as [-> E]. split; [reflexivity|]. rewrite !append_assoc in E. exact E.
      * inversion H; subst; split; [reflexivity|now rewrite append_nil_r].
    + inversion H; subst; split; [reflexivity|now rewrite append_nil_r].
Qed.
Lemma number_from_digits d : each digit d -> forall x, number_from (d +++ x) = let '(w, r) := number_from x in (d +++ w, r).
Proof.
  induction 1 as [|c d C H IH]; intros x; cbn [String.append]; [change ("" +++ x) with x; destruct (number_from x); reflexivity|]. cbn [number_from]. apply digit_spec in C. rewrite C, IH. destruct (number_from x); reflexivity.
Qed.
Definition stops (s : string) : Prop := forall c r, s = String c r -> ~ (digit c \/ c = "."%char).
Lemma number_from_stop s : stops s -> number_from s = ("", s).
Proof.
  destruct s as [|c r]; [reflexivity|]. intros H. specialize (H c r eq_refl). cbn [number_from]. destruct (is_digit c) eqn:E; [apply digit_spec in E; tauto|].
  destruct (chr 46 c) eqn:E2; [apply dot_spec in E2; tauto|reflexivity].
Qed.
Lemma number_from_complete w : number w -> forall s, stops s -> exists c r, w = String c r /\ digit c /\ number_from (r +++ s) = (r, s).
Proof.
  induction 1 as [d E N|d r E N H IH]; intros s X.
  - destruct d as [|c d]; [contradiction|]. inversion E; subst. exists c, d. split; [reflexivity|]. split; [auto|]. rewrite number_from_digits by auto. rewrite number_from_stop by auto. now rewrite append_nil_r.
  - destruct d as [|c d]; [contradiction|]. inversion E; subst. exists c, (d +++ "." +++ r). split; [reflexivity|]. split; [auto|]. destruct (IH s X) as (c' & r' & -> & C' & F).
    rewrite !append_assoc, number_from_digits by auto. apply digit_spec in C'.
    assert (Z : number_from ("." +++ String c' r' +++ s) = (String "." (String c' r'), s)).
    { change ("." +++ String c' r' +++ s) with (String "." (String c' (r' +++ s))). cbn [number_from]. change (is_digit ".") with false. change (chr 46 ".") with true. cbv iota. now rewrite C', F. }
    rewrite Z. reflexivity.
Qed.
Lemma is_number_ok w : is_number w = true <-> number w.
Proof.
  split.
  - destruct w as [|c r]; [discriminate|]. cbn [is_number]. intros H. apply andb_true_iff in H as [H1 H2]. destruct (number_from r) as [w r'] eqn:E.
    apply (number_from_sound (String.length r) _ (str1 c)) in E as [-> E]; [|lia|constructor; [constructor; [now apply digit_spec|constructor]|discriminate]].
    destruct r'; [|discriminate]. now rewrite append_nil_r.
  - intros H. destruct (number_from_complete w H "") as (c & r & -> & C & F); [intros ? ? X; discriminate X|]. rewrite append_nil_r in F. cbn [is_number]. apply digit_spec in C. now rewrite C, F.
Qed.

(** ** terminals *)
Lemma get_assoc {A} n (l : list (string * A)) : get String.eqb n l = assoc n l.
Proof. induction l as [|[m e] l IH]; cbn; auto. now rewrite IH. Qed.
Lemma terminal_get t p : In (t, p) terminals <-> get String.eqb t terminals = Some p.
Proof. rewrite get_assoc. split; [apply (NoDup_assoc _ _ _ terminals_nodup)|apply assoc_In]. Qed.
Lemma literal_In t w : literal t = Some w <-> In (t, Lit w) terminals.
Proof.
  unfold literal. rewrite terminal_get. destruct (get String.eqb t terminals) as [[s| |]|]; split; intros H; inversion H; subst; auto.
Qed.
Lemma name_terminal t : In (t, Name) terminals <-> t = "NAME".
Proof.
  split; [|intros ->; apply assoc_In; reflexivity].
  intros H. assert (X : forallb (fun tp => match snd tp with Name => String.eqb (fst tp) "NAME" | _ => true end) terminals = true) by reflexivity.
  apply (proj1 (forallb_forall _ _) X) in H. now apply String.eqb_eq.
Qed.
Lemma number_terminal t : In (t, Number) terminals <-> t = "NUMBER".
Proof.
  split; [|intros ->; apply assoc_In; reflexivity].
  intros H. assert (X : forallb (fun tp => match snd tp with Number => String.eqb (fst tp) "NUMBER" | _ => true end) terminals = true) by reflexivity.
  apply (proj1 (forallb_forall _ _) X) in H. now apply String.eqb_eq.
Qed.
Lemma lexeme_cases t w : lexeme t w <-> literal t = Some w \/ (t = "NAME" /\ is_name w = true) \/ (t = "NUMBER" /\ is_number w = true).
Proof.
  split.
  - intros (p & I & M). destruct p as [s| |]; cbn [matches] in M.
    + subst. left. now apply literal_In.
    + right; left. apply name_terminal in I. split; auto. now apply is_name_ok.
    + right; right. apply number_terminal in I. split; auto. now apply is_number_ok.
  - intros [H|[[-> H]|[-> H]]].
    + apply literal_In in H. exists (Lit w). split; [auto|reflexivity].
    + exists Name. split; [now apply name_terminal|now apply is_name_ok].
    + exists Number. split; [now apply number_terminal|now apply is_number_ok].
Qed.
Lemma literals_In t w acc : In (t, w) (literals acc) <-> In t acc /\ literal t = Some w.
Proof.
  unfold literals. rewrite in_flat_map. split.
  - intros (u & I & J). destruct (literal u) eqn:E; [|destruct J]. destruct J as [J|[]]. inversion J; subst. auto.
  - intros [I E]. exists t. split; auto. rewrite E. now left.
Qed.
Lemma literal_not_name t w : literal t = Some w -> t <> "NAME" /\ t <> "NUMBER" /\ t <> "$END" /\ t <> "" /\ is_number w = false.
Proof.
  intros H. apply literal_In in H.
  assert (X : forallb (fun tp => match snd tp with Lit w => negb (String.eqb (fst tp) "NAME") && negb (String.eqb (fst tp) "NUMBER") && negb (String.eqb (fst tp) "$END") && negb (String.eqb (fst tp) "") && negb (is_number w) | _ => true end) terminals = true) by reflexivity.
  apply (proj1 (forallb_forall _ _) X) in H. cbn [fst snd] in H. repeat (apply andb_true_iff in H as [H ?]). repeat match goal with HH : negb _ = true |- _ => apply negb_true_iff in HH end.
  repeat split; auto; intros ->; discriminate.
Qed.

(** ** the lexer on words *)
Lemma find_lit acc w t w' : find (fun tw => String.eqb (snd tw) w) (literals acc) = Some (t, w') -> In t acc /\ literal t = Some w /\ w' = w.
Proof. intros H. apply find_some in H as [I E]. apply String.eqb_eq in E. cbn in E. subst. apply literals_In in I. tauto. Qed.
Lemma find_no acc w : find (fun tw => String.eqb (snd tw) w) (literals acc) = None -> ~ In w (map snd (literals acc)).
Proof. intros H I. apply in_map_iff in I as ([t w'] & E & I). cbn in E. subst. apply (find_none _ _ H) in I. cbn in I. now rewrite String.eqb_refl in I. Qed.
Lemma classify_ok acc x t : classify acc x = Some t -> In t acc /\ t <> "$END" /\ lexeme t x /\ (t = "NAME" -> ~ In x (map snd (literals acc))).
Proof.
  unfold classify. destruct (find (fun tw => String.eqb (snd tw) x) (literals acc)) as [[u w]|] eqn:E.
  - intros H; inversion H; subst. apply find_lit in E as (I & LT & ->). destruct (literal_not_name _ _ LT) as (N1 & N2 & N3 & _). split; [auto|]. split; [auto|]. split; [apply lexeme_cases; auto|]. intros ->. contradiction.
  - apply find_no in E. destruct (memb String.eqb "NAME" acc && is_name x) eqn:E1.
    + intros H; inversion H; subst. apply andb_true_iff in E1 as [A B]. apply memb_string_In in A. split; [auto|]. split; [discriminate|]. split; [apply lexeme_cases; auto|auto].
    + destruct (memb String.eqb "NUMBER" acc && is_number x) eqn:E2; [|discriminate]. intros H; inversion H; subst. apply andb_true_iff in E2 as [A B]. apply memb_string_In in A. split; [auto|]. split; [discriminate|]. split; [apply lexeme_cases; auto|discriminate].
Qed.
Lemma lexok_ok r t x : lexok r t = true -> word_at t x -> t <> "$END" /\ classify (accepted r) x = Some (base t).
Proof.
  intros H [LX NT]. unfold lexok in H. destruct (String.eqb_spec t "$END") as [->|NE].
  { apply lexeme_cases in LX as [LX|[[LX _]|[LX _]]]; discriminate LX. }
  split; auto. apply andb_true_iff in H as [A H]. unfold classify. apply lexeme_cases in LX as [LX|[[LX M]|[LX M]]].
  - rewrite LX in H. destruct (find _ _) as [[u w]|]; [|discriminate]. apply String.eqb_eq in H. now subst.
  - rewrite LX in H, A. cbn [literal] in H. change (literal "NAME") with (@None string) in H. change (String.eqb "NAME" "NUMBER") with false in H. rewrite String.eqb_refl in H. cbn [andb orb] in H. rewrite orb_false_r in H.
    destruct (find (fun tw => String.eqb (snd tw) x) (literals (accepted r))) as [[u w]|] eqn:E.
    + exfalso. apply find_some in E as [I E]. apply String.eqb_eq in E. cbn in E. subst w. apply (proj1 (forallb_forall _ _) H) in I. cbn [snd] in I. rewrite M in I. cbn [negb orb] in I. apply memb_string_In in I. contradiction.
    + rewrite A, M, LX. reflexivity.
  - rewrite LX in A. destruct (find (fun tw => String.eqb (snd tw) x) (literals (accepted r))) as [[u w]|] eqn:E.
    + exfalso. apply find_lit in E as (I & LT & _). destruct (literal_not_name _ _ LT) as (_ & _ & _ & _ & Z). congruence.
    + assert (is_name x = false).
      { destruct x as [|c x]; [reflexivity|]. cbn [is_number] in M. apply andb_true_iff in M as [M _]. apply digit_spec in M. cbn [is_name]. destruct (is_alpha c) eqn:AL; [|reflexivity]. apply letter_spec in AL. unfold letter, digit, between in *. cbn in *. lia. }
      rewrite H0, andb_false_r, A, M, LX. reflexivity.
Qed.
Lemma no_empty x : ~ word_at "" x.
Proof. intros [LX _]. apply lexeme_cases in LX as [LX|[[LX _]|[LX _]]]; discriminate LX. Qed.

(** ** the tables *)
Lemma domain_checks : check_first domain_first = true /\ check_dom domain_table (map_of 1 domain_follow) domain_first (map_of 1 domain_names) = true
  /\ check_start domain_table (map_of 1 domain_follow) domain_first "domain" = true
  /\ check_sound domain_table (map_of 1 domain_follow) domain_first (map_of 1 domain_past) (map_of 1 domain_names) "domain" = true.
Proof. repeat split; vm_compute; reflexivity. Qed.
Lemma problem_checks : check_first problem_first = true /\ check_dom problem_table (map_of 1 problem_follow) problem_first (map_of 1 problem_names) = true
  /\ check_start problem_table (map_of 1 problem_follow) problem_first "problem" = true
  /\ check_sound problem_table (map_of 1 problem_follow) problem_first (map_of 1 problem_past) (map_of 1 problem_names) "problem" = true.
Proof. repeat split; vm_compute; reflexivity. Qed.
Lemma plan_checks : check_first plan_first = true /\ check_dom plan_table (map_of 1 plan_follow) plan_first (map_of 1 plan_names) = true
  /\ check_start plan_table (map_of 1 plan_follow) plan_first "plan" = true
  /\ check_sound plan_table (map_of 1 plan_follow) plan_first (map_of 1 plan_past) (map_of 1 plan_names) "plan" = true.
Proof. repeat split; vm_compute; reflexivity. Qed.

(** the three parsers *)
Inductive parser : string -> table -> Prop :=
| P_domain : parser "domain" domain_table
| P_problem : parser "problem" problem_table
| P_plan : parser "plan" plan_table.

Section Parsers.
  Context {V St : Type}.
  Variable leaf : string -> V.
  Variable reduce : nt -> list el -> list V -> St -> St * res V.
  Variables (start : string) (tbl : table).
  Hypothesis P : parser start tbl.
  Lemma words_complete t w st : D word_at (BN (Rule start)) t w the_end -> ends leaf reduce tbl (begin (map snd w) st) (evalT leaf reduce t st).
  Proof.
    destruct P.
    - destruct domain_checks as (C1 & C2 & C3 & _). intros H. exact (complete leaf reduce _ _ _ _ _ word_at lexok_ok no_empty C1 C2 C3 _ _ _ H eq_refl).
    - destruct problem_checks as (C1 & C2 & C3 & _). intros H. exact (complete leaf reduce _ _ _ _ _ word_at lexok_ok no_empty C1 C2 C3 _ _ _ H eq_refl).
    - destruct plan_checks as (C1 & C2 & C3 & _). intros H. exact (complete leaf reduce _ _ _ _ _ word_at lexok_ok no_empty C1 C2 C3 _ _ _ H eq_refl).
  Qed.
  Lemma words_sound ws st0 st' v i : returns tbl lex_words leaf reduce (begin ws st0) (st', Ok v, i) ->
    i = [] /\ exists t w, D word_at (BN (Rule start)) t w the_end /\ map snd w = ws /\ evalT leaf reduce t st0 = (st', Ok v).
  Proof.
    destruct P.
    - destruct domain_checks as (_ & C2 & _ & C4). exact (sound leaf reduce _ _ _ _ _ _ C2 C4 classify_ok _ _ _ _ _).
    - destruct problem_checks as (_ & C2 & _ & C4). exact (sound leaf reduce _ _ _ _ _ _ C2 C4 classify_ok _ _ _ _ _).
    - destruct plan_checks as (_ & C2 & _ & C4). exact (sound leaf reduce _ _ _ _ _ _ C2 C4 classify_ok _ _ _ _ _).
  Qed.
End Parsers.
