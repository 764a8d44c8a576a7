(** The lexer finds the words of a text (Spec_Grammar.spelled). *)
From Coq Require Import String Ascii List Bool NArith Arith Lia ZifyN ZifyNat.
From Verif Require Import Py Names Lexer Py_facts Names_facts Lex_facts Spec_Grammar.
Import ListNotations.
Open Scope string_scope.
Open Scope list_scope.

(** ** characters *)
Lemma code_nat c : N.of_nat (nat_of_ascii c) = code c.
Proof. unfold nat_of_ascii, code. apply N2Nat.id. Qed.
Lemma in_range_spec lo hi c : in_range lo hi c = true <-> N.to_nat lo <= nat_of_ascii c <= N.to_nat hi.
Proof. unfold in_range. rewrite <- code_nat, andb_true_iff, !N.leb_le. lia. Qed.
Lemma chr_spec n c : chr n c = true <-> nat_of_ascii c = N.to_nat n.
Proof. unfold chr. rewrite <- code_nat, N.eqb_eq. lia. Qed.
Lemma ascii_nat a b : nat_of_ascii a = nat_of_ascii b -> a = b.
Proof. intros H. rewrite <- (ascii_nat_embedding a), <- (ascii_nat_embedding b). now rewrite H. Qed.
Lemma letter_spec c : is_alpha c = true <-> letter c.
Proof. unfold is_alpha, letter, between. rewrite orb_true_iff, !in_range_spec. cbn. lia. Qed.
Lemma digit_spec c : is_digit c = true <-> digit c.
Proof. unfold is_digit, digit, between. rewrite in_range_spec. reflexivity. Qed.
Lemma code_char n a c : nat_of_ascii a = N.to_nat n -> ((code c =? n)%N = true <-> c = a).
Proof.
  intros E. change ((code c =? n)%N) with (chr n c). rewrite chr_spec, <- E. split; [apply ascii_nat|now intros ->].
Qed.
Lemma name_char_spec c : is_name_char c = true <-> name_char c.
Proof.
  unfold is_name_char, name_char. rewrite !orb_true_iff, letter_spec, digit_spec.
  rewrite (code_char 45 "-"), (code_char 95 "_") by reflexivity. tauto.
Qed.
Lemma blank_spec c : is_space c = true <-> blank c.
Proof.
  unfold is_space, blank. rewrite !orb_true_iff, !in_range_spec. change ((code c =? 133)%N) with (chr 133 c). change ((code c =? 160)%N) with (chr 160 c).
  rewrite !chr_spec. cbn [In]. change (N.to_nat 9) with 9. change (N.to_nat 13) with 13. change (N.to_nat 28) with 28. change (N.to_nat 32) with 32.
  change (N.to_nat 133) with 133. change (N.to_nat 160) with 160. lia.
Qed.
Lemma each_chars p (P : ascii -> Prop) s : (forall c, p c = true <-> P c) -> (all_chars p s = true <-> each P s).
Proof.
  intros H. induction s as [|c s IH]; cbn.
  - split; [constructor|reflexivity].
  - rewrite andb_true_iff, H, IH. split; [intros []; now constructor|now inversion 1].
Qed.
Lemma each_app P a b : each P (a +++ b) <-> each P a /\ each P b.
Proof.
  induction a as [|c a IH]; cbn; [split; [intros; split; [constructor|assumption]|tauto]|].
  split; [inversion 1; subst; apply IH in H3 as []; split; [now constructor|assumption]|].
  intros [H1 H2]. inversion H1; subst. constructor; auto. now apply IH.
Qed.

(** ** words and tokens *)
Definition spell (t : token) : string :=
  match t with
  | LPAR => "(" | RPAR => ")" | QMARK => "?"
  | TWord s | TNum s | TOp s | TKw s => s
  | TBad => ""
  end.
Definition tok (w : string) : token := match lex w with [t] => t | _ => TBad end.

(** the token of a word is complete before the next character *)
Definition continues (q : lstate) (c : ascii) : bool :=
  match q with
  | QWord _ | QKw _ => is_name_char c
  | QNum _ => is_digit c || chr 46 c
  | QGt | QLt => chr 61 c
  | QStart => false
  | QDot _ | QComment => true
  end.
Lemma lex_from_complete q s : (forall c r, s = String c r -> continues q c = false) -> q <> QComment -> (forall p, q <> QDot p) ->
  lex_from q s = flush q ++ lex s.
Proof.
  intros H N1 N2. destruct s as [|c r].
  - cbn. now rewrite app_nil_r.
  - specialize (H c r eq_refl). unfold lex. cbn [lex_from].
    assert (E : lstep q c = (fst (start c), flush q ++ snd (start c))).
    { destruct q; cbn [continues] in H; try discriminate; cbn [lstep]; try (apply orb_false_iff in H as [H H']; rewrite H'); rewrite ?H; unfold restart; cbn [flush app];
        destruct (start c); reflexivity. }
    rewrite E. cbn [lstep]. destruct (start c) as [q0 ts]. cbn [fst snd]. now rewrite app_assoc.
Qed.

Lemma lex_word_gen w q s : run QStart w = (q, []) -> q <> QComment -> (forall p, q <> QDot p) ->
  (forall c r, s = String c r -> continues q c = false) -> lex (w +++ s) = flush q ++ lex s.
Proof. intros E N1 N2 H. unfold lex at 1. rewrite lex_from_app, E. cbn [fst snd app]. now apply lex_from_complete. Qed.
Lemma run_name r : forall p, each name_char r -> run (QWord p) r = (QWord (p +++ r), []).
Proof.
  induction r as [|c r IH]; intros p H; cbn [run].
  - now rewrite append_nil_r.
  - inversion H as [|? ? H1 H2]; subst. cbn [lstep]. rewrite (proj2 (name_char_spec c) H1). rewrite IH by auto. unfold snoc. now rewrite append_assoc.
Qed.
Lemma run_kw r : forall p, each name_char r -> run (QKw p) r = (QKw (p +++ r), []).
Proof.
  induction r as [|c r IH]; intros p H; cbn [run].
  - now rewrite append_nil_r.
  - inversion H as [|? ? H1 H2]; subst. cbn [lstep]. rewrite (proj2 (name_char_spec c) H1). rewrite IH by auto. unfold snoc. now rewrite append_assoc.
Qed.
Lemma run_digits r : forall p, each digit r -> run (QNum p) r = (QNum (p +++ r), []).
Proof.
  induction r as [|c r IH]; intros p H; cbn [run].
  - now rewrite append_nil_r.
  - inversion H as [|? ? H1 H2]; subst. cbn [lstep]. rewrite (proj2 (digit_spec c) H1). rewrite IH by auto. unfold snoc. now rewrite append_assoc.
Qed.
Lemma start_letter c : letter c -> start c = (QWord (str1 c), []).
Proof. rewrite <- letter_spec. destruct c as [[] [] [] [] [] [] [] []]; vm_compute; auto; intuition discriminate. Qed.
Lemma start_digit c : digit c -> start c = (QNum (str1 c), []).
Proof. rewrite <- digit_spec. destruct c as [[] [] [] [] [] [] [] []]; vm_compute; auto; intuition discriminate. Qed.
Lemma run_number w : number w -> run QStart w = (QNum w, []).
Proof.
  assert (A : forall r p, number r -> run (QNum p) ("." +++ r) = (QNum (p +++ "." +++ r), [])).
  { intros r p H. revert p. induction H as [d D N|d r D N H IH]; intros p; cbn [append run lstep is_digit in_range]; change (is_digit ".") with false; change (chr 46 ".") with true; cbv iota;
      (destruct d as [|c d]; [contradiction|]); inversion D as [|? ? D1 D2]; subst; cbn [append run lstep]; rewrite (proj2 (digit_spec c) D1).
    - rewrite run_digits by auto. cbn [fst snd app]. f_equal. f_equal. rewrite ?append_assoc. cbn. rewrite ?append_assoc. reflexivity.
    - rewrite run_app, run_digits by auto. cbn [fst snd app]. change (String "." r) with ("." +++ r). rewrite IH. cbn [fst snd]. f_equal. f_equal. rewrite ?append_assoc. cbn. rewrite ?append_assoc. reflexivity. }
  intros H. destruct H as [d D N|d r D N H]; (destruct d as [|c d]; [contradiction|]); inversion D as [|? ? D1 D2]; subst; cbn [append run lstep]; rewrite (start_digit c D1).
  - rewrite run_digits by auto. reflexivity.
  - rewrite run_app, run_digits by auto. cbn [fst snd app]. change (String "." r) with ("." +++ r). rewrite A by auto. reflexivity.
Qed.

(** the kinds of words *)
Inductive kind : string -> token -> Prop :=
| K_name c r : letter c -> each name_char r -> kind (String c r) (TWord (String c r))
| K_num w : number w -> kind w (TNum w)
| K_kw r : each name_char r -> In (String ":" r) colon_keywords -> kind (String ":" r) (TKw (String ":" r))
| K_lpar : kind "(" LPAR | K_rpar : kind ")" RPAR | K_qmark : kind "?" QMARK
| K_op o : In o ["="; ">"; ">="; "<"; "<="; "+"; "-"; "*"; "/"] -> kind o (TOp o).
Definition kindb (s : string) : option token :=
  match s with
  | "(" => Some LPAR | ")" => Some RPAR | "?" => Some QMARK
  | _ => if memb String.eqb s ["="; ">"; ">="; "<"; "<="; "+"; "-"; "*"; "/"] then Some (TOp s)
         else match s with
              | String c r => if chr 58 c then (if all_chars is_name_char r && memb String.eqb s colon_keywords then Some (TKw s) else None)
                              else if is_alpha c && all_chars is_name_char r then Some (TWord s) else None
              | _ => None
              end
  end.
Lemma kindb_kind s t : kindb s = Some t -> kind s t.
Proof.
  intros H. destruct s as [|c r]; [discriminate|].
  assert (X : forall t, (if memb String.eqb (String c r) ["="; ">"; ">="; "<"; "<="; "+"; "-"; "*"; "/"] then Some (TOp (String c r))
         else if chr 58 c then (if all_chars is_name_char r && memb String.eqb (String c r) colon_keywords then Some (TKw (String c r)) else None)
                              else if is_alpha c && all_chars is_name_char r then Some (TWord (String c r)) else None) = Some t -> kind (String c r) t).
  { clear H t. intros t H. destruct (memb _ _ _) eqn:M in H; [injection H as <-; constructor; now apply memb_string_In|].
    destruct (chr 58 c) eqn:C.
    - apply chr_spec in C. change (N.to_nat 58) with (nat_of_ascii ":") in C. apply ascii_nat in C. subst c.
      destruct (all_chars is_name_char r && memb String.eqb (String ":" r) colon_keywords) eqn:B; [|discriminate]. injection H as <-.
      apply andb_true_iff in B as [B1 B2]. constructor; [now apply (each_chars _ _ _ name_char_spec)|now apply memb_string_In].
    - destruct (is_alpha c && all_chars is_name_char r) eqn:B; [|discriminate]. injection H as <-.
      apply andb_true_iff in B as [B1 B2]. constructor; [now apply letter_spec|now apply (each_chars _ _ _ name_char_spec)]. }
  destruct c as [[] [] [] [] [] [] [] []]; cbn [kindb] in H; try (apply X; exact H);
    (destruct r as [|c r]; [try (apply X; exact H); injection H as <-; constructor|apply X; exact H]).
Qed.
Lemma terminals_kind : forallb (fun tp => match snd tp with Lit s => match kindb s with Some _ => true | None => false end | _ => true end) terminals = true.
Proof. vm_compute. reflexivity. Qed.
Lemma word_kind w : word w -> exists t, kind w t.
Proof.
  intros (n & p & H & M). pose proof (proj1 (forallb_forall _ _) terminals_kind _ H) as K. cbn in K. destruct p as [s| |]; cbn in M.
  - subst. destruct (kindb s) as [t|] eqn:E; [|discriminate]. exists t. now apply kindb_kind.
  - destruct M as (c & r & -> & L & E). eexists. now constructor.
  - eexists. now constructor.
Qed.
Lemma kind_spell w t : kind w t -> spell t = w /\ t <> TBad.
Proof. destruct 1; split; try reflexivity; discriminate. Qed.
Lemma kind_lex w t : kind w t -> forall s, (forall c r, s = String c r -> ~ glued w c) -> lex (w +++ s) = t :: lex s.
Proof.
  assert (B : forall b (P : Prop), (b = true -> P) -> ~ P -> b = false) by (intros [] P H1 H2; [exfalso; auto|reflexivity]).
  intros K s G. destruct K as [c r L E|w Nw|r E I| | | |o O].
  - rewrite (lex_word_gen (String c r) (QWord (String c r))); try discriminate; auto.
    + cbn [run lstep]. rewrite (start_letter c L), run_name by auto. reflexivity.
    + intros d z Z. cbn. apply (B _ _ (proj1 (name_char_spec d))). intros X. apply (G d z Z). left. exists c, r. auto.
  - rewrite (lex_word_gen w (QNum w)); try discriminate; auto using run_number.
    intros d z Z. cbn. apply (B _ (digit d \/ d = "."%char)).
    + rewrite orb_true_iff, digit_spec, chr_spec. intros [X|X]; [now left|]. right. apply ascii_nat. exact X.
    + intros X. apply (G d z Z). right. left.
      assert (F : exists a q, w = String a q /\ digit a).
      { destruct Nw as [x D N|x y D N _]; (destruct x as [|a x]; [contradiction|]); inversion D; subst; cbn; eauto. }
      destruct F as (a & q & -> & F). exists a, q. auto.
  - rewrite (lex_word_gen (String ":" r) (QKw (String ":" r))); try discriminate.
    + cbn [flush]. unfold kw_token. rewrite (proj2 (memb_string_In _ _) I). reflexivity.
    + cbn [run lstep]. change (start ":") with (QKw ":", @nil token). cbv iota beta. rewrite run_kw by auto. reflexivity.
    + intros d z Z. cbn. apply (B _ _ (proj1 (name_char_spec d))). intros X. apply (G d z Z). left. exists ":"%char, r. auto.
  - reflexivity.
  - reflexivity.
  - reflexivity.
  - assert (Q : forall d z, s = String d z -> (o = ">" \/ o = "<") -> chr 61 d = false).
    { intros d z Z O2. apply (B _ (d = "="%char)); [rewrite chr_spec; intros X; apply ascii_nat; exact X|]. intros ->. apply (G _ _ Z). right. right. auto. }
    destruct O as [<-|[<-|[<-|[<-|[<-|[<-|[<-|[<-|[<-|[]]]]]]]]]]; try reflexivity.
    + rewrite (lex_word_gen ">" QGt); try discriminate; auto. intros d z Z. cbn. eapply Q; eauto.
    + rewrite (lex_word_gen "<" QLt); try discriminate; auto. intros d z Z. cbn. eapply Q; eauto.
Qed.
Lemma kind_tok w t : kind w t -> tok w = t.
Proof.
  intros K. pose proof (kind_lex w t K "" ltac:(discriminate)) as E. rewrite append_nil_r in E. unfold tok. rewrite E. reflexivity.
Qed.
Lemma word_lex w s : word w -> (forall c r, s = String c r -> ~ glued w c) -> lex (w +++ s) = tok w :: lex s.
Proof. intros W G. destruct (word_kind w W) as (t & K). rewrite (kind_tok w t K). now apply kind_lex. Qed.
Lemma word_tok w : word w -> spell (tok w) = w /\ tok w <> TBad.
Proof. intros W. destruct (word_kind w W) as (t & K). rewrite (kind_tok w t K). now apply kind_spell. Qed.

(** * spelled texts are read as their words *)
Lemma comment_end b s : each (fun c => c <> newline) b -> (s = "" \/ exists r, s = String newline r) ->
  lex (String ";" (b +++ s)) = lex s.
Proof.
  intros H E. unfold lex at 1. cbn [lex_from lstep]. change (start ";") with (QComment, @nil token). cbv iota beta. cbn [app].
  assert (C : forall c, chr 10 c = true -> c = newline) by (intros c X; apply ascii_nat; now apply chr_spec in X).
  induction b as [|c b IH]; cbn [append].
  - destruct E as [->|(r & ->)]; [reflexivity|]. cbn [lex_from lstep]. change (chr 10 newline) with true. cbv iota beta. unfold lex. reflexivity.
  - inversion H; subst. cbn [lex_from lstep]. destruct (chr 10 c) eqn:Q; [apply C in Q; contradiction|]. cbn [app]. auto.
Qed.
Lemma spelled_lex ws s : spelled ws s -> Forall word ws /\ lex s = map tok ws.
Proof.
  induction 1 as [|c ws s B H [IH1 IH2]|b ws s B E H [IH1 IH2]|w ws s W G H [IH1 IH2]].
  - split; constructor.
  - split; auto. rewrite lex_space; auto. now apply blank_spec.
  - split; auto. cbn [append]. now rewrite comment_end.
  - split; [now constructor|]. change (w ++ s)%string with (w +++ s). rewrite word_lex by auto. cbn. now rewrite IH2.
Qed.

(** * ... and only they *)
Lemma take_while p s : exists a b, s = a +++ b /\ all_chars p a = true /\ forall c r, b = String c r -> p c = false.
Proof.
  induction s as [|c s (a & b & -> & H1 & H2)].
  - exists "", "". split; [reflexivity|]. split; [reflexivity|]. discriminate.
  - destruct (p c) eqn:E.
    + exists (String c a), b. cbn. rewrite E. auto.
    + exists "", (String c (a +++ b)). split; [reflexivity|]. split; [reflexivity|]. intros d r [= <- <-]. exact E.
Qed.
Lemma name_word c r : letter c -> each name_char r -> word (String c r).
Proof. intros L E. exists "NAME", Name. split; [now left|]. exists c, r. auto. Qed.
Lemma kw_word s : In s colon_keywords -> word s.
Proof.
  intros H. assert (X : forallb (fun s => existsb (fun tp => match snd tp with Lit s' => String.eqb s s' | _ => false end) terminals) colon_keywords = true) by (vm_compute; reflexivity).
  pose proof (proj1 (forallb_forall _ _) X s H) as Y. apply existsb_exists in Y as ([t p] & I & E). destruct p as [s'| |]; try discriminate.
  apply String.eqb_eq in E. cbn in E. exists t, (Lit s'). split; [exact I|exact E].
Qed.
Fixpoint assoc {A} (n : string) (l : list (string * A)) : option A :=
  match l with [] => None | (m, e) :: r => if String.eqb n m then Some e else assoc n r end.
Lemma assoc_In {A} n (l : list (string * A)) e : assoc n l = Some e -> In (n, e) l.
Proof.
  induction l as [|[m x] l IH]; cbn; [discriminate|]. destruct (String.eqb_spec n m) as [->|]; [intros [= ->]; now left|]. intros H. right. auto.
Qed.
Lemma lit_word t s : In (t, Lit s) terminals -> word s.
Proof. intros H. exists t, (Lit s). split; auto. reflexivity. Qed.
Lemma number_dot p d : number p -> each digit d -> d <> "" -> number (p +++ "." +++ d).
Proof.
  induction 1 as [x D N|x y D N H IH]; intros E NE.
  - apply Num_dot; auto. now constructor.
  - rewrite append_assoc. change ((String "." y) +++ "." +++ d) with (String "." (y +++ "." +++ d)).
    rewrite append_assoc. apply (Num_dot x (y +++ "." +++ d)); auto.
Qed.
Lemma number_snoc p d : number p -> digit d -> number (p +++ str1 d).
Proof.
  intros H D. induction H as [x E N|x y E N H IH].
  - apply Num_int; [apply each_app; split; auto; apply Each_cons; [auto|constructor]|]. destruct x; cbn; discriminate.
  - rewrite append_assoc. change ((String "." y) +++ str1 d) with (String "." (y +++ str1 d)). now apply (Num_dot x (y +++ str1 d)).
Qed.
(** reading on from a number *)
Lemma number_run n : forall p r, String.length r <= n -> number p -> ~ In TBad (lex_from (QNum p) r) ->
  exists a b, r = a +++ b /\ number (p +++ a) /\ (forall c z, b = String c z -> continues (QNum p) c = false) /\ lex_from (QNum p) r = TNum (p +++ a) :: lex b.
Proof.
  induction n as [|n IH]; intros p r Hn Hp NB; (destruct r as [|c r]; [exists "", ""; cbn; rewrite append_nil_r; repeat split; auto; discriminate|]); [cbn in Hn; lia|].
  cbn in Hn. destruct (is_digit c) eqn:D.
  - cbn [lex_from lstep] in NB |- *. rewrite D in NB |- *. cbn [app] in NB |- *.
    destruct (IH (snoc p c) r) as (a & b & -> & N1 & N2 & N3); auto; [lia|apply number_snoc; auto; now apply digit_spec|].
    exists (String c a), b. unfold snoc in *. rewrite append_assoc in N1, N3. cbn in N1, N3. rewrite N3. repeat split; auto.
  - destruct (chr 46 c) eqn:C.
    + assert (c = "."%char) by (apply ascii_nat; now apply chr_spec in C). subst c.
      destruct r as [|d r].
      * exfalso. apply NB. cbn. auto.
      * destruct (is_digit d) eqn:D'.
        -- cbn [lex_from lstep] in NB |- *. change (is_digit ".") with false in *. change (chr 46 ".") with true in *. cbv iota in NB |- *. cbn [app lex_from lstep] in NB |- *. rewrite D' in NB |- *. cbn [app] in NB |- *.
           destruct (IH (p +++ "." +++ str1 d) r) as (a & b & -> & N1 & N2 & N3); auto; [cbn in Hn; lia| |].
           ++ apply number_dot; auto; [apply Each_cons; [now apply digit_spec|constructor]|discriminate].
           ++ exists (String "." (String d a)), b. assert (Z : (p +++ "." +++ str1 d) +++ a = p +++ String "." (String d a)) by (rewrite !append_assoc; reflexivity). rewrite Z in N1, N3. rewrite N3. repeat split; auto.
        -- exfalso. apply NB. cbn [lex_from lstep]. change (is_digit ".") with false. change (chr 46 ".") with true. cbv iota. cbn [app lex_from lstep]. rewrite D'. unfold restart.
           destruct (start d) as [q ts]. cbn. auto.
    + exists "", (String c r). rewrite append_nil_r. cbn [append]. split; auto. split; auto. split.
      * intros d z [= <- <-]. cbn. now rewrite D, C.
      * rewrite lex_from_complete; [reflexivity| |discriminate|discriminate]. intros d z [= <- <-]. cbn. now rewrite D, C.
Qed.
Lemma lex_spelled s : ~ In TBad (lex s) -> spelled (map spell (lex s)) s.
Proof.
  remember (String.length s) as n. assert (Hn : String.length s <= n) by lia. clear Heqn. revert s Hn.
  induction n as [|n IH]; intros s Hn NB; (destruct s as [|c s]; [constructor|]); [cbn in Hn; lia|]. cbn in Hn.
  assert (Len : forall a b, String.length b <= String.length (a +++ b)).
  { intros a b. induction a; cbn; lia. }
  assert (Word1 : forall t w s', spell t = w -> word w -> (forall c r, s' = String c r -> ~ glued w c) -> String.length s' <= n ->
     lex (w +++ s') = t :: lex s' -> ~ In TBad (lex (w +++ s')) -> spelled (map spell (lex (w +++ s'))) (w +++ s')).
  { intros t w s' T W G Ls E NB'. rewrite E in NB' |- *. cbn [map]. rewrite T. apply (Sp_word w); auto. apply IH; auto. intros X. apply NB'. now right. }
  destruct (is_space c) eqn:SP.
  { apply Sp_blank; [now apply blank_spec|]. rewrite lex_space in NB |- * by auto. apply IH; auto. lia. }
  destruct (chr 59 c) eqn:C1.
  { assert (c = ";"%char) by (apply ascii_nat; now apply chr_spec in C1). subst c.
    destruct (take_while (fun c => negb (chr 10 c)) s) as (a & b & -> & A1 & A2).
    assert (E : each (fun c => c <> newline) a).
    { apply (each_chars (fun c => negb (chr 10 c))); auto. intros d. rewrite negb_true_iff. split.
      - intros X ->. discriminate X.
      - intros X. destruct (chr 10 d) eqn:Q; auto. exfalso. apply X, ascii_nat. now apply chr_spec in Q. }
    assert (B : b = "" \/ exists r, b = String newline r).
    { destruct b as [|d b]; auto. right. specialize (A2 d b eq_refl). apply negb_false_iff in A2. exists b. f_equal. apply ascii_nat. now apply chr_spec in A2. }
    rewrite comment_end in NB |- * by auto. apply (Sp_comment a); auto. apply IH; auto. pose proof (Len a b). lia. }
  destruct (is_alpha c) eqn:AL.
  { destruct (take_while is_name_char s) as (a & b & -> & A1 & A2).
    assert (L : letter c) by now apply letter_spec. assert (E : each name_char a) by now apply (each_chars _ _ _ name_char_spec).
    assert (G : forall d r, b = String d r -> ~ glued (String c a) d).
    { intros d r Hb [(x & y & [= <- <-] & _ & X)|[(x & y & [= <- <-] & X & _)|([X|X] & _)]].
      - apply name_char_spec in X. rewrite (A2 d r Hb) in X. discriminate.
      - unfold letter, digit, between in *. cbn in *. lia.
      - injection X as -> _. discriminate AL.
      - injection X as -> _. discriminate AL. }
    apply (Word1 (TWord (String c a)) (String c a) b); auto; [now apply name_word|pose proof (Len a b); lia|].
    apply (kind_lex (String c a)); auto. now constructor. }
  destruct (is_digit c) eqn:DG.
  { assert (D : digit c) by now apply digit_spec. unfold lex in NB. cbn [lex_from lstep] in NB. rewrite (start_digit c D) in NB. cbn [app] in NB.
    destruct (number_run (String.length s) (str1 c) s) as (a & b & -> & N1 & N2 & N3); auto.
    { apply Num_int; [apply Each_cons; [auto|constructor]|discriminate]. }
    assert (G : forall d r, b = String d r -> ~ glued (String c a) d).
    { intros d r Hb [(x & y & [= <- <-] & [X|X] & _)|[(x & y & [= <- <-] & _ & X)|([X|X] & _)]].
      - unfold letter, digit, between in *. cbn in *. lia.
      - subst. discriminate DG.
      - specialize (N2 d r Hb). cbn in N2. apply orb_false_iff in N2 as [X1 X2]. destruct X as [X|X].
        + apply digit_spec in X. congruence.
        + subst. discriminate X2.
      - injection X as -> _. discriminate DG.
      - injection X as -> _. discriminate DG. }
    apply (Word1 (TNum (String c a)) (String c a) b); auto.
    - exists "NUMBER", Number. split; [apply assoc_In; reflexivity|exact N1].
    - pose proof (Len a b). lia.
    - apply (kind_lex (String c a)); auto. constructor. exact N1.
    - unfold lex. cbn [append lex_from lstep]. rewrite (start_digit c D). exact NB. }
  destruct (chr 58 c) eqn:C2.
  { assert (c = ":"%char) by (apply ascii_nat; now apply chr_spec in C2). subst c.
    destruct (take_while is_name_char s) as (a & b & -> & A1 & A2).
    assert (E : each name_char a) by now apply (each_chars _ _ _ name_char_spec).
    assert (LX : lex (String ":" a +++ b) = kw_token (String ":" a) :: lex b).
    { rewrite (lex_word_gen (String ":" a) (QKw (String ":" a))); try discriminate; auto.
      cbn [run lstep]. change (start ":") with (QKw ":", @nil token). cbv iota beta. rewrite run_kw by auto. reflexivity. }
    change (String ":" (a +++ b)) with (String ":" a +++ b) in *. unfold kw_token in LX. destruct (memb String.eqb (String ":" a) colon_keywords) eqn:M.
    - apply memb_string_In in M. apply (Word1 (TKw (String ":" a)) (String ":" a) b); auto; [now apply kw_word| |pose proof (Len a b); lia].
      intros d r Hb [(x & y & [= <- <-] & _ & X)|[(x & y & [= <- <-] & X & _)|([X|X] & _)]]; try discriminate.
      + apply name_char_spec in X. rewrite (A2 d r Hb) in X. discriminate.
      + apply digit_spec in X. discriminate X.
    - exfalso. apply NB. rewrite LX. now left. }
  (* one or two characters *)
  assert (One : forall t, kind (str1 c) t -> word (str1 c) -> (forall d r, s = String d r -> ~ glued (str1 c) d) -> spelled (map spell (lex (String c s))) (String c s)).
  { intros t K W G. apply (Word1 t (str1 c) s); auto; [now apply kind_spell|lia|now apply (kind_lex (str1 c))]. }
  assert (NG : c <> ">"%char -> c <> "<"%char -> forall d, ~ glued (str1 c) d).
  { intros N1 N2 d [(x & y & [= <- _] & [X|X] & _)|[(x & y & [= <- _] & X & _)|([X|X] & _)]].
    - apply letter_spec in X. congruence.
    - subst. discriminate C2.
    - apply digit_spec in X. congruence.
    - injection X as ->. contradiction.
    - injection X as ->. contradiction. }
  assert (Two : forall b, (c = ">"%char \/ c = "<"%char) -> s = String "=" b -> spelled (map spell (lex (String c s))) (String c s)).
  { intros b Hc ->. change (String c (String "=" b)) with (String c "=" +++ b) in *. cbn in Hn.
    assert (G : forall d r, b = String d r -> ~ glued (String c "=") d).
    { intros d r _ [(x & y & [= <- _] & [X|X] & _)|[(x & y & [= <- _] & X & _)|([X|X] & _)]]; try discriminate.
      - apply letter_spec in X. congruence.
      - subst. destruct Hc; discriminate.
      - apply digit_spec in X. congruence. }
    apply (Word1 (TOp (String c "=")) (String c "=") b); auto; [|lia|].
    - destruct Hc as [->| ->]; [apply (lit_word "GREATER_EQUAL_OP")|apply (lit_word "LESSER_EQUAL_OP")]; apply assoc_In; reflexivity.
    - apply (kind_lex (String c "=")); auto. constructor. destruct Hc as [->| ->]; cbn; tauto. }
  assert (H1 : forall t o, (c = ">"%char \/ c = "<"%char) -> str1 c = o -> In (t, Lit o) terminals -> In o ["="; ">"; ">="; "<"; "<="; "+"; "-"; "*"; "/"] -> spelled (map spell (lex (String c s))) (String c s)).
  { intros t o Hc <- I O. destruct s as [|d r].
    - apply (One (TOp (str1 c))); [now constructor|eapply lit_word; eauto|discriminate].
    - destruct (chr 61 d) eqn:C3.
      + assert (d = "="%char) by (apply ascii_nat; now apply chr_spec in C3). subst d. now apply (Two r).
      + apply (One (TOp (str1 c))); [now constructor|eapply lit_word; eauto|]. intros d' r' [= <- <-] [(x & y & [= <- _] & [X|X] & _)|[(x & y & [= <- _] & X & _)|(_ & X)]].
        * apply letter_spec in X. congruence.
        * subst. discriminate C2.
        * apply digit_spec in X. congruence.
        * subst. discriminate C3. }
  assert (Bad : start c = (QStart, [TBad]) -> False).
  { intros E. apply NB. unfold lex. cbn [lex_from lstep]. rewrite E. now left. }
  clear IH Word1 Two Len. revert NG H1 One Bad. clear NB.
  assert (Lits : forall t o, str1 c = o -> In (t, Lit o) terminals -> (forall d, ~ glued (str1 c) d) -> (forall t, kind (str1 c) t -> word (str1 c) -> (forall d r, s = String d r -> ~ glued (str1 c) d) -> spelled (map spell (lex (String c s))) (String c s)) ->
     forall k, kind o k -> spelled (map spell (lex (String c s))) (String c s)).
  { intros t o <- I G One k K. apply (One k); auto. eapply lit_word; eauto. }
  intros NG H1 One Bad. unfold start in Bad. rewrite SP, C1, C2, AL, DG in Bad.
  destruct (chr 40 c) eqn:E1; [apply chr_spec in E1; change (N.to_nat 40) with (nat_of_ascii "(") in E1; apply ascii_nat in E1; subst; apply (Lits "LPAR" "(" eq_refl ltac:(apply assoc_In; reflexivity) (NG ltac:(discriminate) ltac:(discriminate)) One LPAR); constructor|].
  destruct (chr 41 c) eqn:E2; [apply chr_spec in E2; change (N.to_nat 41) with (nat_of_ascii ")") in E2; apply ascii_nat in E2; subst; apply (Lits "RPAR" ")" eq_refl ltac:(apply assoc_In; reflexivity) (NG ltac:(discriminate) ltac:(discriminate)) One RPAR); constructor|].
  destruct (chr 63 c) eqn:E3; [apply chr_spec in E3; change (N.to_nat 63) with (nat_of_ascii "?") in E3; apply ascii_nat in E3; subst; apply (Lits "?" "?" eq_refl ltac:(apply assoc_In; reflexivity) (NG ltac:(discriminate) ltac:(discriminate)) One QMARK); constructor|].
  destruct (chr 62 c) eqn:E4; [apply chr_spec in E4; change (N.to_nat 62) with (nat_of_ascii ">") in E4; apply ascii_nat in E4; subst; apply (H1 "GREATER_OP" ">"); auto; [apply assoc_In; reflexivity|cbn; tauto]|].
  destruct (chr 60 c) eqn:E5; [apply chr_spec in E5; change (N.to_nat 60) with (nat_of_ascii "<") in E5; apply ascii_nat in E5; subst; apply (H1 "LESSER_OP" "<"); auto; [apply assoc_In; reflexivity|cbn; tauto]|].
  destruct (chr 61 c) eqn:E6; [apply chr_spec in E6; change (N.to_nat 61) with (nat_of_ascii "=") in E6; apply ascii_nat in E6; subst; apply (Lits "EQUAL_OP" "=" eq_refl ltac:(apply assoc_In; reflexivity) (NG ltac:(discriminate) ltac:(discriminate)) One (TOp "=")); constructor; cbn; tauto|].
  destruct (chr 43 c) eqn:E7; [apply chr_spec in E7; change (N.to_nat 43) with (nat_of_ascii "+") in E7; apply ascii_nat in E7; subst; apply (Lits "PLUS" "+" eq_refl ltac:(apply assoc_In; reflexivity) (NG ltac:(discriminate) ltac:(discriminate)) One (TOp "+")); constructor; cbn; tauto|].
  destruct (chr 45 c) eqn:E8; [apply chr_spec in E8; change (N.to_nat 45) with (nat_of_ascii "-") in E8; apply ascii_nat in E8; subst; apply (Lits "MINUS" "-" eq_refl ltac:(apply assoc_In; reflexivity) (NG ltac:(discriminate) ltac:(discriminate)) One (TOp "-")); constructor; cbn; tauto|].
  destruct (chr 42 c) eqn:E9; [apply chr_spec in E9; change (N.to_nat 42) with (nat_of_ascii "*") in E9; apply ascii_nat in E9; subst; apply (Lits "TIMES" "*" eq_refl ltac:(apply assoc_In; reflexivity) (NG ltac:(discriminate) ltac:(discriminate)) One (TOp "*")); constructor; cbn; tauto|].
  destruct (chr 47 c) eqn:E10; [apply chr_spec in E10; change (N.to_nat 47) with (nat_of_ascii "/") in E10; apply ascii_nat in E10; subst; apply (Lits "DIVIDE" "/" eq_refl ltac:(apply assoc_In; reflexivity) (NG ltac:(discriminate) ltac:(discriminate)) One (TOp "/")); constructor; cbn; tauto|].
  exfalso. apply Bad. reflexivity.
Qed.
