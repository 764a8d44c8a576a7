(** Texts derived from the plain part of the grammar are not rejected as syntax errors. *)
From Coq Require Import String Ascii List Bool NArith Arith Lia.
From Verif Require Import Py Names Reqs Logic Validation Core Lexer TypedList UpdateTags Parser Spec_Parse Py_facts Names_facts Lex_facts
     TypedList_facts Parse_facts GD_facts Text_facts Domain_facts Problem_facts DomainRead_facts Declared_facts Raise_facts RaiseParse_facts Spec_Grammar Words_facts Grammar_facts GrammarText_facts.
Import ListNotations.
Open Scope string_scope.
Open Scope list_scope.

(** * Inversion of derivations *)
Section Inv.
  Variables (lx : string -> string -> Prop) (rl : list (string * sym)).
  Notation DD := (derives lx rl).
  Lemma inv_nil ws : DD (Seq []) ws -> ws = [].
  Proof. now inversion 1. Qed.
  Lemma inv_seq e l ws : DD (Seq (e :: l)) ws -> exists us vs, ws = us ++ vs /\ DD e us /\ DD (Seq l) vs.
  Proof. inversion 1; subst. eauto. Qed.
  Lemma inv_alt l ws : DD (Alt l) ws -> exists e, In e l /\ DD e ws.
  Proof. inversion 1; subst. eauto. Qed.
  Lemma inv_opt e ws : DD (Opt e) ws -> ws = [] \/ DD e ws.
  Proof. inversion 1; subst; auto. Qed.
  Lemma inv_star e ws : DD (Star e) ws -> exists wss, ws = concat wss /\ Forall (DD e) wss.
  Proof.
    remember (Star e) as s. intros H. induction H; try discriminate; injection Heqs as <-.
    - exists []. auto.
    - destruct IHderives2 as (wss & -> & F); auto. exists (us :: wss). auto.
  Qed.
  Lemma inv_plus e ws : DD (Plus e) ws -> exists us wss, ws = us ++ concat wss /\ DD e us /\ Forall (DD e) wss.
  Proof. inversion 1 as [| | | | | | | | |? us vs K1 K2]; subst. apply inv_star in K2 as (wss & -> & F). eauto. Qed.
  Lemma inv_N n ws : DD (N n) ws -> exists e, In (n, e) rl /\ DD e ws.
  Proof. inversion 1; subst. eauto. Qed.
  Lemma inv_T t ws : DD (T t) ws -> exists w, ws = [w] /\ lx t w.
  Proof. inversion 1; subst. eauto. Qed.
End Inv.
Lemma NoDup_assoc {A} (l : list (string * A)) n e : NoDup (map fst l) -> In (n, e) l -> assoc n l = Some e.
Proof.
  induction l as [|[m x] l IH]; cbn; intros ND H; [destruct H|]. inversion ND as [|? ? N1 N2]; subst. destruct H as [[= -> ->]|H].
  - now rewrite String.eqb_refl.
  - destruct (String.eqb_spec n m) as [->|]; auto. exfalso. apply N1. apply (in_map fst) in H. exact H.
Qed.
Lemma nodup_b (l : list string) : (fix go l := match l with [] => true | x :: r => negb (existsb (String.eqb x) r) && go r end) l = true -> NoDup l.
Proof.
  induction l as [|x l IH]; intros H; [constructor|]. apply andb_true_iff in H as [H1 H2]. constructor; auto.
  intros I. apply negb_true_iff in H1. assert (existsb (String.eqb x) l = true) by (apply existsb_exists; exists x; split; [auto|apply String.eqb_refl]). congruence.
Qed.
Lemma rules_nodup : NoDup (map fst plain_rules).
Proof. apply nodup_b. vm_compute. reflexivity. Qed.
Lemma terminals_nodup : NoDup (map fst terminals).
Proof. apply nodup_b. vm_compute. reflexivity. Qed.

Notation D2 := (derives plain plain_rules).
Lemma unN n e ws : assoc n plain_rules = Some e -> D2 (N n) ws -> D2 e ws.
Proof.
  intros H K. apply inv_N in K as (e' & I & K). apply (NoDup_assoc _ _ _ rules_nodup) in I. congruence.
Qed.
Lemma unlit t w ws : assoc t terminals = Some (Lit w) -> D2 (T t) ws -> ws = [w].
Proof.
  intros H K. apply inv_T in K as (w' & -> & (p & I & M) & _). apply (NoDup_assoc _ _ _ terminals_nodup) in I.
  assert (p = Lit w) by congruence. subst p. cbn in M. now subst.
Qed.
Lemma unname ws : D2 (T "NAME") ws -> exists w, ws = [w] /\ matches Name w /\ ~ In w reserved.
Proof.
  intros K. apply inv_T in K as (w & -> & (p & I & M) & NR). apply (NoDup_assoc _ _ _ terminals_nodup) in I.
  injection I as <-. exists w. auto.
Qed.
Lemma unnum ws : D2 (T "NUMBER") ws -> exists w, ws = [w] /\ number w.
Proof.
  intros K. apply inv_T in K as (w & -> & (p & I & M) & _). apply (NoDup_assoc _ _ _ terminals_nodup) in I.
  injection I as <-. exists w. auto.
Qed.

(** * Trees *)
Inductive good : sexp -> Prop :=
| good_atom t : kind (spell t) t -> t <> LPAR -> t <> RPAR -> good (SAtom t)
| good_list l : Forall good l -> good (SList l).
Definition tree (ws : list string) (s : sexp) : Prop := ws = ww s /\ good s.
Definition trees (ws : list string) (l : list sexp) : Prop := ws = wl l /\ Forall good l.
Lemma good_ok s : good s -> sx_ok s /\ map tok (ww s) = flat s.
Proof.
  induction s as [t|l IH] using sexp_ind'; intros G.
  - inversion G; subst. split; [now constructor|]. cbn. now rewrite (kind_tok _ _ H0).
  - inversion G as [|? F]; subst. split.
    + constructor. rewrite Forall_forall in *. intros x Hx. apply IH; auto.
    + rewrite ww_list. cbn [map flat]. rewrite map_app. cbn [map]. change (tok "(") with LPAR. change (tok ")") with RPAR. f_equal. f_equal.
      clear G. induction l as [|x l IHl]; auto. inversion F; inversion IH; subst. rewrite wl_cons, map_app. cbn [flat_map]. rewrite IHl by auto. f_equal. now apply H5.
Qed.
Lemma name_good w : matches Name w -> good (SAtom (TWord w)).
Proof. intros (c & r & -> & H1 & H2). constructor; try discriminate. now constructor. Qed.
Lemma num_good w : number w -> good (SAtom (TNum w)).
Proof. intros H. constructor; try discriminate. now constructor. Qed.
Lemma kw_good k : kindb k = Some (TKw k) -> good (SAtom (TKw k)).
Proof. intros H. constructor; try discriminate. now apply kindb_kind. Qed.
Lemma op_good o : In o ["="; ">"; ">="; "<"; "<="; "+"; "-"; "*"; "/"] -> good (SAtom (TOp o)).
Proof. intros H. constructor; try discriminate. now constructor. Qed.
Lemma qmark_good : good (SAtom QMARK).
Proof. constructor; try discriminate. constructor. Qed.
Lemma word_good w : kindb w = Some (TWord w) -> good (SAtom (TWord w)).
Proof. intros H. constructor; try discriminate. now apply kindb_kind. Qed.
Lemma trees_nil : trees [] [].
Proof. split; [reflexivity|constructor]. Qed.
Lemma trees_one ws s : tree ws s -> trees ws [s].
Proof. intros [-> G]. split; [now rewrite wl_cons, wl_nil, app_nil_r|auto]. Qed.
Lemma trees_app a b la lb : trees a la -> trees b lb -> trees (a ++ b) (la ++ lb).
Proof. intros [-> G1] [-> G2]. split; [now rewrite wl_app|now apply Forall_app]. Qed.
Lemma trees_cons a b s lb : tree a s -> trees b lb -> trees (a ++ b) (s :: lb).
Proof. intros [-> G1] [-> G2]. split; [now rewrite wl_cons|auto]. Qed.
Lemma tree_list ws l : trees ws l -> tree ("(" :: ws ++ [")"]) (SList l).
Proof. intros [-> G]. split; [now rewrite ww_list|now constructor]. Qed.
Lemma trees_all {Q : sexp -> Prop} wss : Forall (fun w => exists s, tree w s /\ Q s) wss ->
  exists l, trees (concat wss) l /\ Forall Q l /\ length l = length wss.
Proof.
  induction 1 as [|w wss (s & Ts & Qs) _ (l & Tl & Ql & Len)]; [exists []; split; [apply trees_nil|auto]|].
  exists (s :: l). split; [now apply trees_cons|]. split; [auto|cbn; auto].
Qed.
Ltac good1 := first [assumption | apply qmark_good | apply name_good; assumption | apply num_good; assumption
  | apply kw_good; reflexivity | apply word_good; reflexivity | apply op_good; cbn; tauto].
Ltac goods := repeat first [assumption | apply Forall_cons | apply Forall_nil | apply Forall_app; split | apply good_list | good1].

Ltac unword K :=
  unfold L, R in K;
  first [lazymatch type of K with derives _ _ (T ?t) _ => apply (unlit t _ _ eq_refl) in K end | (let w := fresh "w" in let M := fresh "M" in let NR := fresh "NR" in apply unname in K as (w & K & M & NR)) ].
Ltac unrule H :=
  lazymatch type of H with
  | derives _ _ (N ?n) _ =>
      let e := eval vm_compute in (assoc n plain_rules) in
      lazymatch e with Some ?b => apply (unN n b _ eq_refl) in H end
  end.
Ltac unseq H :=
  lazymatch type of H with
  | derives _ _ (Seq []) _ => apply inv_nil in H
  | derives _ _ (Seq (?e :: _)) _ =>
      let u := fresh "u" in let v := fresh "v" in let K := fresh "K" in let E := fresh "E" in
      apply inv_seq in H as (u & v & E & K & H); try unword K; unseq H
  end.
Ltac unalt H := apply inv_alt in H as (?e & ?I & H); repeat (destruct I as [<-|I]); [..|destruct I].

(** * Results other than a syntax error *)
Definition ns {A} (r : res A) : Prop := r <> Err LarkSyntaxError.
Lemma ns_Ok {A} (a : A) : ns (Ok a).
Proof. discriminate. Qed.
Lemma ns_bind {A B} (r : res A) (k : A -> res B) : ns r -> (forall a, r = Ok a -> ns (k a)) -> ns (bind r k).
Proof. unfold ns. destruct r; cbn; intros H K; auto. congruence. Qed.
Lemma ns_within {A} E (r : res A) : Raise_facts.within E r -> ~ In LarkSyntaxError E -> ns r.
Proof. intros H N0 X. apply N0. now apply H. Qed.
Lemma ns_name {A} (r : res A) : Raise_facts.within nameE r -> ns r.
Proof. intros H. apply (ns_within nameE); auto. cbn. intuition discriminate. Qed.
Lemma ns_check b e : e <> LarkSyntaxError -> ns (check b e).
Proof. intros H. destruct b; cbn; [discriminate|intros [=]; contradiction]. Qed.
Lemma ns_mapR {A B} (f : A -> res B) l : (forall x, In x l -> ns (f x)) -> ns (mapR f l).
Proof.
  induction l as [|x l IH]; intros H; [apply ns_Ok|]. cbn [mapR]. apply ns_bind; [apply H; now left|]. intros a _. apply ns_bind; [apply IH; intros; apply H; now right|]. intros; apply ns_Ok.
Qed.
Lemma ns_mapR_F {A B} (f : A -> res B) l : Forall (fun x => ns (f x)) l -> ns (mapR f l).
Proof. intros F. apply ns_mapR. now apply Forall_forall. Qed.
Lemma ns_except {A} (r : res A) e : ns r -> e <> LarkSyntaxError -> ns (except_value r e).
Proof. destruct r as [|[]]; cbn; unfold ns; intros; congruence. Qed.
Definition ctx_ns (c : gctx) : Prop := (forall n, ns (g_const c n)) /\ (forall l ts, tl_vars false l = Some ts -> ns (g_vars c l)).

(** * Typed lists *)
Section TL2.
  Variables (V TD : sym) (ok : bool -> list sexp -> Prop).
  Hypotheses (Hn : forall seen, ok seen [])
    (Hv : forall ws, D2 V ws -> exists l, trees ws l /\ forall seen r, ok true r -> ok seen (l ++ r))
    (Ht : forall ws, D2 TD ws -> exists l, trees ws l /\ forall r, ok false r -> ok true (SAtom (TOp "-") :: l ++ r)).
  Lemma items wss : Forall (D2 V) wss -> exists l, trees (concat wss) l /\ forall seen r, (forall b, ok b r) -> ok seen (l ++ r).
  Proof.
    induction 1 as [|w wss H _ (l & Tl & Ol)]; [exists []; split; [apply trees_nil|auto]|].
    destruct (Hv w H) as (l' & Tl' & Ol'). exists (l' ++ l). split; [now apply trees_app|]. intros seen r R. rewrite <- app_assoc. auto.
  Qed.
  Lemma items1 wss : Forall (D2 V) wss -> exists l, trees (concat wss) l /\ forall r, ok true r -> ok true (l ++ r).
  Proof.
    induction 1 as [|w wss H _ (l & Tl & Ol)]; [exists []; split; [apply trees_nil|auto]|].
    destruct (Hv w H) as (l' & Tl' & Ol'). exists (l' ++ l). split; [now apply trees_app|]. intros r R. rewrite <- app_assoc. auto.
  Qed.
  Lemma star_items ws : D2 (Star V) ws -> exists l, trees ws l /\ forall seen, ok seen l.
  Proof.
    intros H. apply inv_star in H as (wss & -> & F). destruct (items wss F) as (l & Tl & Ol). exists l. split; auto. intros seen. rewrite <- (app_nil_r l). auto.
  Qed.
  Lemma group_items ws : D2 (group V TD) ws -> exists l, trees ws l /\ forall seen r, ok false r -> ok seen (l ++ r).
  Proof.
    intros H. unfold group in H. unseq H. subst. apply inv_plus in K as (us & wss & -> & K & F).
    destruct (Hv _ K) as (l1 & T1 & O1). destruct (items1 _ F) as (l2 & T2 & O2). destruct (Ht _ K1) as (l3 & T3 & O3).
    exists (l1 ++ l2 ++ SAtom (TOp "-") :: l3). split.
    - rewrite <- app_assoc. apply trees_app; auto. apply trees_app; auto. rewrite app_nil_r.
      apply (trees_cons ["-"]); [split; [reflexivity|good1]|auto].
    - intros seen r R. rewrite <- !app_assoc. cbn [app]. auto.
  Qed.
  Lemma groups_items ws : D2 (Seq [Plus (group V TD); Star V]) ws -> exists l, trees ws l /\ ok false l.
  Proof.
    intros H. unseq H. subst. rewrite app_nil_r. destruct (star_items _ K0) as (l' & T' & O').
    apply inv_plus in K as (us & wss & -> & K & F).
    assert (X : Forall (D2 (group V TD)) (us :: wss)) by auto. clear K F. change (us ++ concat wss) with (concat (us :: wss)).
    assert (Y : exists l, trees (concat (us :: wss)) l /\ forall seen r, (forall b, ok b r) -> ok seen (l ++ r)).
    { induction X as [|w wss' H _ (l & Tl & Ol)]; [exists []; split; [apply trees_nil|auto]|].
      destruct (group_items w H) as (l1 & T1 & O1). exists (l1 ++ l). split; [now apply trees_app|]. intros seen r R. rewrite <- app_assoc. auto. }
    destruct Y as (l & Tl & Ol). exists (l ++ l'). split; [now apply trees_app|auto].
  Qed.
  Lemma typed_items ws : D2 (Alt [Star V; Seq [Plus (group V TD); Star V]]) ws -> exists l, trees ws l /\ ok false l.
  Proof.
    intros H. unalt H; [|now apply groups_items]. destruct (star_items _ H) as (l & Tl & Ol). eauto.
  Qed.
  Lemma typed_items1 ws : D2 (Alt [Plus V; Seq [Plus (group V TD); Star V]]) ws -> exists l, trees ws l /\ ok false l.
  Proof.
    intros H. unalt H; [|now apply groups_items]. apply inv_plus in H as (us & wss & -> & K & F).
    destruct (items (us :: wss) (Forall_cons _ K F)) as (l & Tl & Ol). exists l. split; auto. rewrite <- (app_nil_r l). auto.
  Qed.
End TL2.

Lemma variable_words ws : D2 (N "variable") ws -> exists n, ws = ["?"; n] /\ matches Name n /\ ~ In n reserved.
Proof. intros H. unrule H. unseq H. subst. exists w. auto. Qed.
Lemma primitive_words ws : D2 (N "primitive_type") ws -> exists n, ws = [n] /\ matches Name n.
Proof.
  intros H. unrule H. unalt H.
  - apply unname in H as (w & -> & M & _). eauto.
  - unword H. subst. exists "object". split; auto. exists "o"%char, "bject".
    split; [reflexivity|]. split; [apply letter_spec; reflexivity|]. apply (each_chars _ _ _ name_char_spec). reflexivity.
Qed.
Lemma type_def_tree ws : D2 (N "type_def") ws -> exists s gs, tree ws s /\ type_def s = Some gs.
Proof.
  intros H. unrule H. unalt H.
  - unseq H. subst. apply inv_plus in K1 as (us & wss & -> & K & F).
    assert (X : Forall (fun w => exists n, w = [n] /\ matches Name n) (us :: wss)).
    { constructor; [now apply primitive_words|]. eapply Forall_impl; [|exact F]. intros. now apply primitive_words. }
    clear K F. change (us ++ concat wss) with (concat (us :: wss)).
    assert (Y : exists gs, trees (concat (us :: wss)) (map name_sx gs) /\ length gs = length (us :: wss)).
    { induction X as [|w l (n & -> & M) _ (gs & Tg & Len)]; [exists []; split; [apply trees_nil|auto]|].
      exists (n :: gs). split; [|cbn; auto]. cbn [concat map]. apply (trees_cons [n]); auto. split; [reflexivity|]. unfold name_sx. good1. }
    destruct Y as (gs & Tg & Len). exists (SList (SAtom (TWord "either") :: map name_sx gs)), gs. split.
    + rewrite app_nil_r. apply (tree_list ("either" :: _)). apply (trees_cons ["either"]); auto. split; [reflexivity|good1].
    + cbn [type_def]. change (String.eqb "either" "either") with true. cbv iota. destruct gs as [|g gs]; [discriminate|]. cbn [map]. apply (mapO_words (g :: gs)).
  - apply primitive_words in H as (n & -> & M). exists (SAtom (TWord n)), [n]. split; [split; [reflexivity|good1]|reflexivity].
Qed.
Lemma typed_vars_trees ws : D2 (N "typed_list_variable") ws -> exists l, trees ws l /\ exists ts, tl_vars false l = Some ts.
Proof.
  intros H. unrule H. apply (typed_items (N "variable") (N "type_def") (fun seen l => exists ts, tl_vars seen l = Some ts)) in H; auto; clear.
  - intros. exists []. reflexivity.
  - intros ws H. apply variable_words in H as (n & -> & M & _). exists [SAtom QMARK; SAtom (TWord n)]. split; [split; [reflexivity|goods]|].
    intros seen r (ts & E). exists (IItem n :: ts). cbn [app tl_vars]. now rewrite E.
  - intros ws H. apply type_def_tree in H as (s & gs & Ts & E). exists [s]. split; [now apply trees_one|].
    intros r (ts & Er). exists (ISep :: ITypes gs :: ts). cbn [app tl_vars]. change (String.eqb "-" "-") with true. cbn [andb]. now rewrite E, Er.
Qed.
Lemma typed_names_trees ws : D2 (N "typed_list_name") ws -> exists l, trees ws l /\ exists ts, tl_names false l = Some ts.
Proof.
  intros H. unrule H. apply (typed_items (T "NAME") (N "primitive_type") (fun seen l => (exists ts, tl_names seen l = Some ts) /\ object_next l = false)) in H; [destruct H as (l & Tl & E & _); eauto|clear..].
  - intros. split; [exists []; reflexivity|reflexivity].
  - intros ws H. apply unname in H as (n & -> & M & NR). exists [SAtom (TWord n)]. split; [split; [reflexivity|goods]|].
    intros seen r ((ts & E) & _). split; [exists (IItem n :: ts); cbn [app tl_names]; now rewrite E|]. cbn [app object_next].
    destruct (String.eqb_spec n "object") as [->|]; [|reflexivity]. elim NR. cbn. tauto.
  - intros ws H. apply primitive_words in H as (g & -> & M). exists [SAtom (TWord g)]. split; [split; [reflexivity|goods]|].
    intros r ((ts & Er) & NO). split; [|reflexivity]. exists (ISep :: ITypes [g] :: ts). cbn [app tl_names]. change (String.eqb "-" "-") with true. rewrite NO. cbn [andb negb]. now rewrite Er.
Qed.
Lemma typed_list_variable_ns l ts : tl_vars false l = Some ts -> ns (typed_list_variable l).
Proof.
  intros E. unfold typed_list_variable. rewrite E. apply tl_vars_written in E as (groups & tail & _ & ->). cbn [of_opt bind].
  apply ns_except; [|discriminate]. apply ns_bind; [|intros; apply ns_Ok]. rewrite parse_typed_list_all. apply ns_name, add_all_within, parse_name_within.
Qed.
Lemma typed_list_name_ns l ts : tl_names false l = Some ts -> ns (typed_list_name l).
Proof.
  intros E. unfold typed_list_name. rewrite E. apply tl_names_written in E as (groups & tail & _ & ->). cbn [of_opt bind].
  apply ns_except; [|discriminate]. apply ns_bind; [|intros; apply ns_name, names_within]. rewrite parse_typed_list_all. apply ns_name, add_all_within, parse_name_within.
Qed.

(** * Terms, atoms, numeric expressions *)
Lemma term_trees ws : D2 (N "term") ws -> exists l p, trees ws l /\ (forall r ps, terms r = Some ps -> terms (l ++ r) = Some (p :: ps)) /\ (forall r, starts_term (l ++ r) = true).
Proof.
  intros H. unrule H. unalt H.
  - unrule H. apply unname in H as (n & -> & M & _). exists [SAtom (TWord n)], (PConst n). split; [split; [reflexivity|goods]|]. split; [intros r ps E; cbn; now rewrite E|reflexivity].
  - apply variable_words in H as (n & -> & M & _). exists [SAtom QMARK; SAtom (TWord n)], (PVar n). split; [split; [reflexivity|goods]|]. split; [intros r ps E; cbn; now rewrite E|reflexivity].
Qed.
Lemma terms_trees ws : D2 (Star (N "term")) ws -> exists l ps, trees ws l /\ terms l = Some ps.
Proof.
  intros H. apply inv_star in H as (wss & -> & F). induction F as [|w wss H _ (l & ps & Tl & E)]; [exists [], []; split; [apply trees_nil|reflexivity]|].
  apply term_trees in H as (l' & p & Tl' & E' & _). exists (l' ++ l), (p :: ps). split; [now apply trees_app|auto].
Qed.
Lemma resolve_ns c t : ctx_ns c -> ns (resolve c t).
Proof. intros [H _]. destruct t; cbn; [apply ns_bind; [apply H|intros; apply ns_Ok]|apply ns_Ok]. Qed.
Lemma cov_ns c t : ns (constant_or_variable c t).
Proof.
  destruct t; cbn; [apply ns_Ok|]. destruct (dict_get _ _ _); [apply ns_Ok|]. apply ns_bind; [apply ns_name, mk_var_within|intros; apply ns_Ok].
Qed.
Lemma atomic_pred_ns c n args ps : ctx_ns c -> terms args = Some ps -> ns (atomic_pred c n args).
Proof.
  intros C E. unfold atomic_pred. rewrite E. cbn [of_opt bind]. apply ns_bind; [apply ns_mapR; intros; now apply resolve_ns|]. intros rs _.
  apply ns_bind; [apply ns_mapR; intros; apply cov_ns|]. intros ts _. apply ns_name, mk_pred_within.
Qed.
Lemma atomic_eq_ns c args a b : ctx_ns c -> terms args = Some [a; b] -> ns (atomic_eq c args).
Proof.
  intros C E. unfold atomic_eq. rewrite E. apply ns_bind; [now apply resolve_ns|]. intros ra _. apply ns_bind; [now apply resolve_ns|]. intros rb _.
  apply ns_bind; [apply ns_check; discriminate|]. intros _ _. apply ns_bind; [apply cov_ns|]. intros l _. apply ns_bind; [apply cov_ns|]. intros r _. apply ns_name, mk_eq_within.
Qed.
(** an atomic formula, as the functions that meet one see it *)
Inductive atom_sx : sexp -> Prop :=
| at_pred n args ps : ~ In n reserved -> terms args = Some ps -> atom_sx (SList (SAtom (TWord n) :: args))
| at_eq args a b : terms args = Some [a; b] -> starts_term args = true -> atom_sx (SList (SAtom (TOp "=") :: args)).
Lemma atom_tree ws : D2 (N "atomic_formula_term") ws -> exists s, tree ws s /\ atom_sx s.
Proof.
  intros H. unrule H. unalt H.
  - unseq H. unrule K0. apply unname in K0 as (n & -> & M & NR). subst. apply terms_trees in K1 as (l & ps & [-> G] & E).
    exists (SList (SAtom (TWord n) :: l)). split; [|econstructor; eauto]. split; [words|goods].
  - unseq H. subst. apply term_trees in K1 as (l & p & [-> G] & E & S1). apply term_trees in K2 as (l' & p' & [-> G'] & E' & _).
    exists (SList (SAtom (TOp "=") :: l ++ l')). split; [split; [words; rewrite wl_app; words|goods]|]. econstructor; [|auto]. apply E. rewrite <- (app_nil_r l'). apply E'. reflexivity.
Qed.
Lemma atom_ns c s : ctx_ns c -> atom_sx s -> ns (atomic_formula_term c s).
Proof. intros C H. destruct H; cbn [atomic_formula_term]; [eapply atomic_pred_ns; eauto|]. change (String.eqb "=" "=") with true. cbv iota. eapply atomic_eq_ns; eauto. Qed.
Lemma f_head_tree ws : D2 (N "f_head") ws -> exists s, tree ws s /\ (exists n, s = SAtom (TWord n) \/ exists args ps, s = SList (SAtom (TWord n) :: args) /\ terms args = Some ps).
Proof.
  intros H. unrule H. unalt H.
  - apply unname in H as (n & -> & M & NR). exists (SAtom (TWord n)). split; [split; [reflexivity|goods]|]. eauto.
  - unseq H. subst. apply terms_trees in K1 as (l & ps & [-> G] & E). exists (SList (SAtom (TWord w) :: l)). split; [split; [words|goods]|]. exists w. right. eauto.
Qed.
Lemma f_head_ns c s n : ctx_ns c -> (s = SAtom (TWord n) \/ exists args ps, s = SList (SAtom (TWord n) :: args) /\ terms args = Some ps) -> ns (f_head c s).
Proof.
  intros C [->|(args & ps & -> & E)]; cbn [f_head]; [apply ns_name, mk_numfun_within|]. rewrite E. cbn [of_opt bind].
  apply ns_bind; [apply ns_mapR; intros; now apply resolve_ns|]. intros rs _. apply ns_bind; [apply ns_mapR; intros; apply cov_ns|]. intros ts _. apply ns_name, mk_numfun_within.
Qed.
Ltac lens :=
  repeat match goal with H : context [Datatypes.length (_ ++ _)] |- _ => rewrite app_length in H; cbn [Datatypes.length] in H end;
  repeat match goal with H : context [Datatypes.length (_ :: _)] |- _ => cbn [Datatypes.length] in H; repeat rewrite app_length in H end;
  repeat (rewrite ?app_length; cbn [Datatypes.length]); cbn [Datatypes.length] in *; lia.
Lemma concat_len {A} (wss : list (list A)) w : In w wss -> length w <= length (concat wss).
Proof. induction wss as [|x wss IH]; cbn; intros H; [destruct H|]. rewrite app_length. destruct H as [->|H]; [lia|]. specialize (IH H). lia. Qed.
Lemma arith_tree E (Q : sexp -> Prop) ws :
  (forall us, length us < length ws -> D2 E us -> exists s, tree us s /\ Q s) ->
  D2 (Alt [Seq [L; N "binary_op"; E; E; R]; Seq [L; N "multi_op"; E; Plus E; R]; Seq [L; T "MINUS"; E; R]]) ws ->
  exists o args k, tree ws (SList (SAtom (TOp o) :: args)) /\ arith_op o (length args) = Some k /\ Forall Q args.
Proof.
  intros IH H.
  assert (Multi : forall us, D2 (N "multi_op") us -> exists o, us = [o] /\ (o = "+" \/ o = "*")).
  { intros us K. unrule K. unalt K; unword K; eauto. }
  unalt H.
  - unseq H. subst. destruct (IH u1) as (s1 & [-> G1] & Q1); auto; [lens|]. destruct (IH u2) as (s2 & [-> G2] & Q2); auto; [lens|].
    unrule K0. unalt K0.
    + apply Multi in K0 as (o & -> & O). exists o, [s1; s2], (if String.eqb o "+" then BPlus else BTimes). split; [split; [words|goods; apply op_good; destruct O as [->| ->]; cbn; tauto]|].
      split; [destruct O as [->| ->]; reflexivity|auto].
    + unword K0. subst. exists "/", [s1; s2], BDivide. split; [split; [words|goods]|]. split; [reflexivity|auto].
  - unseq H. subst. destruct (IH u1) as (s1 & [-> G1] & Q1); auto; [lens|]. apply Multi in K0 as (o & -> & O).
    apply inv_plus in K2 as (us & wss & -> & K2 & F). destruct (@trees_all Q (us :: wss)) as (l & [El Gl] & Ql & Len).
    { apply Forall_forall. intros w Hw. apply IH.
      - pose proof (concat_len (us :: wss) w Hw) as X. cbn [concat] in X. lens.
      - destruct Hw as [<-|Hw]; auto. rewrite Forall_forall in F. auto. }
    cbn [concat] in El. rewrite El. exists o, (s1 :: l), (if String.eqb o "+" then BPlus else BTimes).
    split; [split; [words|goods; apply op_good; destruct O as [->| ->]; cbn; tauto]|]. split; [|auto].
    cbn [length] in Len |- *. unfold arith_op. destruct l; [discriminate|]. destruct O as [->| ->]; reflexivity.
  - unseq H. subst. destruct (IH u1) as (s1 & [-> G1] & Q1); auto; [lens|]. exists "-", [s1], BMinus. split; [split; [words|goods]|]. split; [reflexivity|auto].
Qed.
Lemma num_literal_ns s : ns (num_literal s).
Proof. apply (ns_within [ValueError]); [apply num_literal_within|]. cbn. intuition discriminate. Qed.
Definition Qexp (s : sexp) : Prop := forall c, ctx_ns c -> ns (f_exp c s).
Lemma f_exp_tree n : forall ws, length ws <= n -> D2 (N "f_exp") ws -> exists s, tree ws s /\ Qexp s.
Proof.
  induction n as [|n IH]; intros ws Hn H.
  { destruct ws; [|cbn in Hn; lia]. exfalso. unrule H. unalt H.
    - unrule H. apply unnum in H as (? & ? & _). discriminate.
    - unseq H. subst. discriminate.
    - unseq H. subst. discriminate.
    - unseq H. subst. discriminate.
    - apply f_head_tree in H as (s & [E _] & _). symmetry in E. now apply ww_nonempty in E. }
  unrule H.
  assert (Ar : D2 (Alt [Seq [L; N "binary_op"; N "f_exp"; N "f_exp"; R]; Seq [L; N "multi_op"; N "f_exp"; Plus (N "f_exp"); R]; Seq [L; T "MINUS"; N "f_exp"; R]]) ws -> exists s, tree ws s /\ Qexp s).
  { intros A. destruct (arith_tree (N "f_exp") Qexp ws) as (o & args & k & Ts & Eo & F); auto; [intros us Lu; apply IH; lia|].
    exists (SList (SAtom (TOp o) :: args)). split; auto. intros c C. cbn [f_exp]. rewrite Eo. apply ns_bind; [|intros; apply ns_Ok].
    apply ns_mapR. rewrite Forall_forall in F. intros x Hx. now apply F. }
  apply inv_alt in H as (e & I & H). destruct I as [<-|[<-|[<-|[<-|[<-|[]]]]]].
  - unrule H. apply unnum in H as (w & -> & Nw). exists (SAtom (TNum w)). split; [split; [reflexivity|goods]|]. intros c C. cbn [f_exp]. apply ns_bind; [apply num_literal_ns|intros; apply ns_Ok].
  - apply Ar. eapply D_Alt; [|exact H]. cbn. tauto.
  - apply Ar. eapply D_Alt; [|exact H]. cbn. tauto.
  - apply Ar. eapply D_Alt; [|exact H]. cbn. tauto.
  - apply f_head_tree in H as (s & Ts & m & Em). exists s. split; auto. intros c C. pose proof (f_head_ns c s m C Em) as X. destruct Em as [->|(args & ps & -> & _)]; exact X.
Qed.
Lemma f_exp_tree' ws : D2 (N "f_exp") ws -> exists s, tree ws s /\ Qexp s.
Proof. apply (f_exp_tree (length ws)). auto. Qed.
Lemma operand_tree ws : D2 (N "operand") ws -> exists s, tree ws s /\ Qexp s /\ forall r, starts_term (s :: r) = false.
Proof.
  intros H. unrule H.
  assert (Ar : D2 (Alt [Seq [L; N "binary_op"; N "f_exp"; N "f_exp"; R]; Seq [L; N "multi_op"; N "f_exp"; Plus (N "f_exp"); R]; Seq [L; T "MINUS"; N "f_exp"; R]]) ws -> exists s, tree ws s /\ Qexp s /\ forall r, starts_term (s :: r) = false).
  { intros A. destruct (arith_tree (N "f_exp") Qexp ws) as (o & args & k & Ts & Eo & F); auto; [intros us Lu; apply f_exp_tree'|].
    exists (SList (SAtom (TOp o) :: args)). split; auto. split; [|reflexivity]. intros c C. cbn [f_exp]. rewrite Eo. apply ns_bind; [|intros; apply ns_Ok].
    apply ns_mapR. rewrite Forall_forall in F. intros x Hx. now apply F. }
  apply inv_alt in H as (e & I & H). destruct I as [<-|[<-|[<-|[<-|[<-|[]]]]]].
  - unrule H. apply unnum in H as (w & -> & Nw). exists (SAtom (TNum w)). split; [split; [reflexivity|goods]|]. split; [|reflexivity]. intros c C. cbn [f_exp]. apply ns_bind; [apply num_literal_ns|intros; apply ns_Ok].
  - apply Ar. eapply D_Alt; [|exact H]. cbn. tauto.
  - apply Ar. eapply D_Alt; [|exact H]. cbn. tauto.
  - apply Ar. eapply D_Alt; [|exact H]. cbn. tauto.
  - unseq H. subst. apply terms_trees in K1 as (l & ps & [-> G] & E). exists (SList (SAtom (TWord w) :: l)). split; [split; [words|goods]|]. split; [|reflexivity].
    intros c C. apply (f_head_ns c _ w C). right. eauto.
Qed.

(** * Conditions *)
Definition Qgd (s : sexp) : Prop := forall c, ctx_ns c -> ns (gd c s).
Lemma not_reserved w k : ~ In w reserved -> In k reserved -> String.eqb w k = false.
Proof. intros N0 I0. apply String.eqb_neq. intros ->. contradiction. Qed.
Lemma vars_list_ns c l ts : ctx_ns c -> tl_vars false l = Some ts -> ns (g_vars c l).
Proof. intros [_ H]. apply H. Qed.
Ltac nr NR k := rewrite (not_reserved _ k NR) by (cbn; tauto).
Lemma atom_gd s : atom_sx s -> Qgd s.
Proof.
  intros H c C. destruct H as [n args ps NR E|args a b E St]; cbn [gd].
  - nr NR "or". nr NR "not". nr NR "and". nr NR "imply". nr NR "exists". nr NR "forall". cbn [orb]. eapply atomic_pred_ns; eauto.
  - change (String.eqb "=" "=") with true. rewrite St. cbn [andb]. eapply atomic_eq_ns; eauto.
Qed.
Lemma sub_all E (Q : sexp -> Prop) (ws us : list string) : (forall us, length us < length ws -> D2 E us -> exists s, tree us s /\ Q s) -> length us < length ws ->
  D2 (Star E) us -> exists l, trees us l /\ Forall Q l.
Proof.
  intros IH Lu H. apply inv_star in H as (wss & -> & F). destruct (@trees_all Q wss) as (l & Tl & Ql & _); eauto.
  apply Forall_forall. intros w Hw. apply IH; [pose proof (concat_len wss w Hw); lia|]. rewrite Forall_forall in F. auto.
Qed.
Lemma gd_tree n : forall ws, length ws <= n -> D2 (N "gd") ws -> exists s, tree ws s /\ Qgd s.
Proof.
  induction n as [|n IH]; intros ws Hn H; unrule H; unalt H;
    try (match type of H with derives _ _ (N "atomic_formula_term") _ => apply atom_tree in H as (s & Ts & A); exists s; split; [auto|now apply atom_gd] end);
    try (exfalso; unseq H; subst; cbn in Hn; lia).
  - unseq H. subst. destruct (sub_all (N "gd") Qgd ("(" :: "or" :: u1 ++ [")"]) u1) as (l & [-> G] & F); auto; [intros; apply IH; auto; lens|lens|].
    exists (SList (SAtom (TWord "or") :: l)). split; [split; [words|goods]|]. intros c C. cbn [gd]. change (String.eqb "or" "or") with true. cbv iota.
    rewrite Forall_forall in F. apply ns_bind; [apply ns_mapR; intros; now apply F|]. intros. apply ns_bind; [apply ns_check; discriminate|intros; apply ns_Ok].
  - unseq H. subst. destruct (IH u1) as (x & [-> G] & F); auto; [lens|].
    exists (SList [SAtom (TWord "not"); x]). split; [split; [words|goods]|]. intros c C. cbn [gd]. cbn [String.eqb Ascii.eqb Bool.eqb].
    apply ns_bind; [now apply F|intros; apply ns_Ok].
  - unseq H. subst. destruct (sub_all (N "gd") Qgd ("(" :: "or" :: u1 ++ [")"]) u1) as (l & [-> G] & F); auto; [intros; apply IH; auto; lens|lens|].
    exists (SList (SAtom (TWord "and") :: l)). split; [split; [words|goods]|]. intros c C. cbn [gd]. cbn [String.eqb Ascii.eqb Bool.eqb].
    rewrite Forall_forall in F. apply ns_bind; [apply ns_mapR; intros; now apply F|]. intros. apply ns_Ok.
  - unseq H. subst. destruct (IH u1) as (x & [-> G] & F); auto; [lens|]. destruct (IH u2) as (y & [-> G2] & F2); auto; [lens|].
    exists (SList [SAtom (TWord "imply"); x; y]). split; [split; [words|goods]|]. intros c C. cbn [gd]. cbn [String.eqb Ascii.eqb Bool.eqb].
    apply ns_bind; [now apply F|intros]. apply ns_bind; [now apply F2|intros]. apply ns_bind; [apply ns_check; discriminate|intros; apply ns_Ok].
  - unseq H. subst. apply typed_vars_trees in K2 as (l & [-> Gl] & ts & E). destruct (IH u4) as (x & [-> G] & F); auto; [lens|].
    exists (SList [SAtom (TWord "exists"); SList l; x]). split; [split; [words|goods]|]. intros c C. cbn [gd]. cbn [String.eqb Ascii.eqb Bool.eqb orb].
    apply ns_bind; [eapply vars_list_ns; eauto|intros]. apply ns_bind; [now apply F|intros]. apply ns_bind; [apply ns_check; discriminate|intros].
    apply ns_bind; [apply ns_name, mk_vars_within|intros; apply ns_Ok].
  - unseq H. subst. apply typed_vars_trees in K2 as (l & [-> Gl] & ts & E). destruct (IH u4) as (x & [-> G] & F); auto; [lens|].
    exists (SList [SAtom (TWord "forall"); SList l; x]). split; [split; [words|goods]|]. intros c C. cbn [gd]. cbn [String.eqb Ascii.eqb Bool.eqb orb].
    apply ns_bind; [eapply vars_list_ns; eauto|intros]. apply ns_bind; [now apply F|intros]. apply ns_bind; [apply ns_check; discriminate|intros].
    apply ns_bind; [apply ns_name, mk_vars_within|intros; apply ns_Ok].
  - unseq H. subst. apply f_exp_tree' in K1 as (x & [-> G1] & Q1). apply f_exp_tree' in K2 as (y & [-> G2] & Q2).
    assert (O : exists o k, u0 = [o] /\ In o [">"; "<"; ">="; "<="] /\ String.eqb o "=" = false /\ comparison o = Some k).
    { unrule K0. unalt K0; unword K0; subst; eexists _, _; (split; [reflexivity|]; split; [cbn; tauto|split; reflexivity]). }
    destruct O as (o & k & -> & Io & N1 & Ek). exists (SList [SAtom (TOp o); x; y]). split; [split; [words|goods; apply op_good; cbn in *; tauto]|].
    intros c C. cbn [gd]. rewrite N1, Ek. cbn [andb]. apply ns_bind; [now apply Q1|intros]. apply ns_bind; [now apply Q2|intros; apply ns_Ok].
  - unseq H. subst. apply operand_tree in K1 as (x & [-> G1] & Q1 & St). apply f_exp_tree' in K2 as (y & [-> G2] & Q2).
    exists (SList [SAtom (TOp "="); x; y]). split; [split; [words|goods]|].
    intros c C. cbn [gd]. rewrite St. rewrite andb_false_r. change (comparison "=") with (Some BEqual). cbv iota.
    apply ns_bind; [now apply Q1|intros]. apply ns_bind; [now apply Q2|intros; apply ns_Ok].
Qed.
Lemma gd_tree' ws : D2 (N "gd") ws -> exists s, tree ws s /\ Qgd s.
Proof. apply (gd_tree (length ws)). auto. Qed.
Lemma pregd_tree ws : D2 (N "emptyor_pregd") ws -> exists s, tree ws s /\ forall c, ctx_ns c -> ns (emptyor_pregd c s).
Proof.
  intros H. unrule H. unalt H.
  - unseq H. subst. exists (SList []). split; [split; [reflexivity|goods]|]. intros. apply ns_Ok.
  - apply gd_tree' in H as (s & Ts & Q). exists s. split; auto. intros c C. destruct s as [|[|]]; cbn [emptyor_pregd]; try apply ns_Ok; now apply Q.
Qed.

(** * Effects *)
Definition other_head (s : sexp) : Prop := forall w args, s = SList (SAtom (TWord w) :: args) -> ~ In w ["and"; "forall"; "when"; "oneof"].
Definition Qp (s : sexp) : Prop := other_head s /\ forall c, ctx_ns c -> ns (p_effect c s).
Lemma assign_reserved w k : assign_op w = Some k -> In w reserved.
Proof.
  unfold assign_op. repeat match goal with |- context [String.eqb w ?k] => destruct (String.eqb_spec w k) as [->|]; [cbn; tauto|] end. discriminate.
Qed.
Lemma p_effect_tree ws : D2 (N "p_effect") ws -> exists s, tree ws s /\ Qp s.
Proof.
  intros H. unrule H. unalt H.
  - unseq H. subst. apply atom_tree in K1 as (x & [-> G] & A). exists (SList [SAtom (TWord "not"); x]). split; [split; [words|goods]|].
    split; [intros w args [= <- _]; cbn; intuition discriminate|]. intros c C. cbn [p_effect]. change (String.eqb "not" "not") with true. cbv iota.
    apply ns_bind; [now apply atom_ns|intros; apply ns_Ok].
  - apply atom_tree in H as (x & Ts & A). exists x. split; auto. split.
    + intros w args ->. inversion A; subst. intros I0. apply H1. cbn in *. tauto.
    + intros c C. pose proof (atom_ns c x C A) as X. destruct A as [n args ps NR E|args a b E St]; cbn [p_effect]; auto.
      nr NR "not". destruct (assign_op n) eqn:Ea; auto. apply assign_reserved in Ea. contradiction.
  - unrule H. unseq H. subst. apply f_head_tree in K1 as (h & [-> G1] & m & Em). apply f_exp_tree' in K2 as (e & [-> G2] & Q2).
    assert (O : exists o k, u0 = [o] /\ In o ["assign"; "scale-up"; "scale-down"; "increase"; "decrease"] /\ String.eqb o "not" = false /\ assign_op o = Some k).
    { unrule K0. unalt K0; unword K0; subst; eexists _, _; (split; [reflexivity|]; split; [cbn; tauto|split; reflexivity]). }
    destruct O as (o & k & -> & Io & N1 & Ek). exists (SList [SAtom (TWord o); h; e]). split; [split; [words|]|split].
    + goods. destruct Io as [<-|[<-|[<-|[<-|[<-|[]]]]]]; good1.
    + intros w args [= <- _] I2. cbn [In] in Io, I2. intuition subst; discriminate.
    + intros c C. cbn [p_effect]. rewrite N1, Ek. apply ns_bind; [eapply f_head_ns; eauto|intros]. apply ns_bind; [now apply Q2|intros; apply ns_Ok].
Qed.
Lemma other_eqb s w args k : other_head s -> s = SList (SAtom (TWord w) :: args) -> In k ["and"; "forall"; "when"; "oneof"] -> String.eqb w k = false.
Proof. intros H E I0. apply String.eqb_neq. intros ->. now apply (H _ _ E). Qed.
Lemma cond_effect_tree ws : D2 (N "cond_effect") ws -> exists s, tree ws s /\ forall c, ctx_ns c -> ns (cond_effect c s).
Proof.
  intros H. unrule H. unalt H.
  - unseq H. subst. destruct (sub_all (N "p_effect") Qp ("(" :: "and" :: u1 ++ [")"]) u1) as (l & [-> G] & F); auto; [intros; now apply p_effect_tree|lens|].
    exists (SList (SAtom (TWord "and") :: l)). split; [split; [words|goods]|]. intros c C. cbn [cond_effect]. change (String.eqb "and" "and") with true. cbv iota.
    rewrite Forall_forall in F. apply ns_bind; [apply ns_mapR; intros; now apply F|intros; apply ns_Ok].
  - apply p_effect_tree in H as (s & Ts & O & Q). exists s. split; auto. intros c C. specialize (Q c C). destruct s as [|[|[[]|] args]]; auto.
    cbn [cond_effect]. now rewrite (other_eqb _ _ _ "and" O eq_refl) by (cbn; tauto).
Qed.
Definition Qeff (top : bool) (s : sexp) : Prop := forall c, ctx_ns c -> ns (effect c top s).
Lemma effect_trees n : forall ws, length ws <= n ->
  (D2 (N "c_effect") ws -> exists s, tree ws s /\ forall top, Qeff top s) /\ (D2 (N "effect") ws -> exists s, tree ws s /\ Qeff true s).
Proof.
  induction n as [|n IH]; intros ws Hn.
  - destruct ws; [|cbn in Hn; lia]. assert (P0 : ~ D2 (N "p_effect") []).
    { intros H. apply p_effect_tree in H as (s & [E _] & _). symmetry in E. now apply ww_nonempty in E. }
    assert (C0 : ~ D2 (N "c_effect") []).
    { intros H. unrule H. unalt H; try contradiction; unseq H; subst; discriminate. }
    split; [contradiction|]. intros H. exfalso. unrule H. unalt H; try contradiction. unseq H; subst; discriminate.
  - assert (C1 : D2 (N "c_effect") ws -> exists s, tree ws s /\ forall top, Qeff top s).
    { intros H. unrule H. unalt H.
      - unseq H. subst. apply typed_vars_trees in K2 as (l & [-> Gl] & ts & E). destruct (IH u4) as [_ X]; [lens|]. destruct (X K4) as (x & [-> G] & F).
        exists (SList [SAtom (TWord "forall"); SList l; x]). split; [split; [words|goods]|]. intros top c C. cbn [effect]. cbn [String.eqb Ascii.eqb Bool.eqb]. rewrite andb_false_r.
        apply ns_bind; [eapply vars_list_ns; eauto|intros]. apply ns_bind; [now apply F|intros]. apply ns_bind; [apply ns_name, mk_vars_within|intros; apply ns_Ok].
      - unseq H. subst. apply gd_tree' in K1 as (x & [-> G] & Q). apply cond_effect_tree in K2 as (y & [-> G2] & Q2).
        exists (SList [SAtom (TWord "when"); x; y]). split; [split; [words|goods]|]. intros top c C. cbn [effect]. cbn [String.eqb Ascii.eqb Bool.eqb]. rewrite andb_false_r.
        apply ns_bind; [now apply Q|intros]. apply ns_bind; [now apply Q2|intros; apply ns_Ok].
      - unseq H. subst. apply inv_plus in K1 as (us & wss & -> & K1 & F). destruct (@trees_all (Qeff true) (us :: wss)) as (l & [El Gl] & Ql & Len).
        { apply Forall_forall. intros w Hw. apply IH.
          - pose proof (concat_len (us :: wss) w Hw) as X. cbn [concat] in X. lens.
          - destruct Hw as [<-|Hw]; auto. rewrite Forall_forall in F. auto. }
        cbn [concat] in El. rewrite El. exists (SList (SAtom (TWord "oneof") :: l)). split; [split; [words|goods]|]. intros top c C. cbn [effect]. cbn [String.eqb Ascii.eqb Bool.eqb]. rewrite andb_false_r.
        destruct l; [discriminate|]. rewrite Forall_forall in Ql. apply ns_bind; [apply ns_mapR; intros; now apply Ql|]. intros. apply ns_bind; [apply ns_check; discriminate|intros; apply ns_Ok].
      - apply p_effect_tree in H as (s & Ts & O & Q). exists s. split; auto. intros top c C. specialize (Q c C). destruct s as [|[|[[]|] args]]; auto.
        cbn [effect]. rewrite (other_eqb _ _ _ "and" O eq_refl), (other_eqb _ _ _ "forall" O eq_refl), (other_eqb _ _ _ "when" O eq_refl), (other_eqb _ _ _ "oneof" O eq_refl) by (cbn; tauto).
        now rewrite andb_false_r. }
    split; auto. intros H. unrule H. unalt H; [|destruct (C1 H) as (s & Ts & Q); eauto].
    unseq H. subst. destruct (sub_all (N "c_effect") (fun s => forall top, Qeff top s) ("(" :: "and" :: u1 ++ [")"]) u1) as (l & [-> G] & F); auto; [intros; apply IH; auto; lens|lens|].
    exists (SList (SAtom (TWord "and") :: l)). split; [split; [words|goods]|]. intros c C. cbn [effect]. change (true && String.eqb "and" "and") with true. cbv iota.
    rewrite Forall_forall in F. apply ns_bind; [apply ns_mapR; intros; now apply F|intros; apply ns_Ok].
Qed.
Lemma effect_tree ws : D2 (N "emptyor_effect") ws -> exists s, tree ws s /\ forall c, ctx_ns c -> ns (emptyor_effect c s).
Proof.
  intros H. unrule H. unalt H.
  - unseq H. subst. exists (SList []). split; [split; [reflexivity|goods]|]. intros. apply ns_Ok.
  - apply (effect_trees (length ws)) in H as (s & Ts & Q); [|auto]. exists s. split; auto. intros c C. destruct s as [|[|]]; cbn [emptyor_effect]; try apply ns_Ok; now apply Q.
Qed.

(** * Sections *)
Lemma require_key_tree ws : D2 (N "require_key") ws -> exists s, tree ws s /\ exists r, require_key s = Some r.
Proof.
  intros H. unrule H. unalt H; unword H; subst ws;
    lazymatch goal with |- exists s, tree [?k] s /\ _ => exists (SAtom (TKw k)); split; [split; [reflexivity|good1]|]; eexists; vm_compute; reflexivity end.
Qed.
Lemma requirements_tree ws : D2 (N "requirements") ws -> exists b, tree ws (section_sx ":requirements" b) /\ ns (require_keys b).
Proof.
  intros H. unrule H. unseq H. subst. apply inv_plus in K1 as (us & wss & -> & K1 & F). destruct (@trees_all (fun s => exists r, require_key s = Some r) (us :: wss)) as (l & [El Gl] & Ql & Len).
  { apply Forall_forall. intros w Hw. apply require_key_tree. destruct Hw as [<-|Hw]; auto. rewrite Forall_forall in F. auto. }
  cbn [concat] in El. rewrite El. exists l. split; [unfold section_sx; split; [words|goods]|]. destruct l as [|x l]; [discriminate|]. unfold require_keys.
  assert (X : exists rs, mapO require_key (x :: l) = Some rs).
  { clear -Ql. induction Ql as [|y m (r & E) _ (rs & E2)]; [exists []; reflexivity|]. exists (r :: rs). cbn [mapO]. now rewrite E, E2. }
  destruct X as (rs & E). change (ns (of_opt (mapO require_key (x :: l)))). rewrite E. apply ns_Ok.
Qed.
Lemma names_section_tree k T0 R0 ws : assoc R0 plain_rules = Some (Seq [L; T T0; N "typed_list_name"; R]) -> assoc T0 terminals = Some (Lit k) -> kindb k = Some (TKw k) ->
  D2 (N R0) ws -> exists b, tree ws (section_sx k b) /\ ns (typed_list_name b).
Proof.
  intros A1 A2 A3 H. apply (unN _ _ _ A1) in H. apply inv_seq in H as (u & v & -> & K & H). apply (unlit "LPAR" "(" _ eq_refl) in K. apply inv_seq in H as (u1 & v1 & -> & K1 & H).
  apply (unlit _ _ _ A2) in K1. apply inv_seq in H as (u2 & v2 & -> & K2 & H). apply inv_seq in H as (u3 & v3 & -> & K3 & H). apply (unlit "RPAR" ")" _ eq_refl) in K3. apply inv_nil in H. subst.
  apply typed_names_trees in K2 as (l & [-> G] & ts & E). exists l. split; [unfold section_sx; split; [words|goods; now apply kw_good]|]. eapply typed_list_name_ns; eauto.
Qed.
Lemma skeleton_tree ws : D2 (N "atomic_formula_skeleton") ws -> exists s, tree ws s /\ ns (atomic_formula_skeleton s).
Proof.
  intros H. unrule H. unseq H. subst. apply typed_vars_trees in K1 as (l & [-> G] & ts & E). exists (SList (SAtom (TWord w) :: l)). split; [split; [words|goods]|].
  cbn [atomic_formula_skeleton]. apply ns_bind; [eapply typed_list_variable_ns; eauto|intros]. apply ns_bind; [apply ns_name, mk_vars_within|intros].
  apply ns_bind; [apply ns_name, mk_pred_within|intros p _]. destruct p; discriminate.
Qed.
Lemma fskeleton_tree ws : D2 (N "atomic_function_skeleton") ws -> exists l, tree ws (SList l) /\ ns (atomic_function_skeleton (SList l)).
Proof.
  intros H. unrule H. unseq H. subst. apply typed_vars_trees in K1 as (l & [-> G] & ts & E). exists (SAtom (TWord w) :: l). split; [split; [words|goods]|].
  cbn [atomic_function_skeleton]. apply ns_bind; [eapply typed_list_variable_ns; eauto|intros]. destruct (String.eqb w "total-cost"); [apply ns_Ok|]. apply ns_bind; [apply ns_name, mk_vars_within|intros].
  apply ns_bind; [apply ns_name, mk_numfun_within|intros p _]. destruct p; discriminate.
Qed.
Lemma predicates_tree ws : D2 (N "predicates") ws -> exists b, tree ws (section_sx ":predicates" b) /\ b <> [] /\ ns (mapR atomic_formula_skeleton b).
Proof.
  intros H. unrule H. unseq H. subst. apply inv_plus in K1 as (us & wss & -> & K1 & F). destruct (@trees_all (fun s => ns (atomic_formula_skeleton s)) (us :: wss)) as (l & [El Gl] & Ql & Len).
  { apply Forall_forall. intros w Hw. apply skeleton_tree. destruct Hw as [<-|Hw]; auto. rewrite Forall_forall in F. auto. }
  cbn [concat] in El. rewrite El. exists l. split; [unfold section_sx; split; [words|goods]|]. split; [intros ->; discriminate|now apply ns_mapR_F].
Qed.
Lemma functions_tree ws : D2 (N "functions") ws -> exists b, tree ws (section_sx ":functions" b) /\ ns (functions_section b).
Proof.
  intros H. unrule H. unseq H. subst. unrule K1.
  assert (NE : u1 <> []).
  { assert (X : forall us, D2 (N "atomic_function_skeleton") us -> us <> []).
    { intros us K. apply fskeleton_tree in K as (l & [-> _] & _). rewrite ww_list. discriminate. }
    unalt K1.
    - apply inv_plus in K1 as (us & wss & -> & K1 & _). apply X in K1. intros E. apply app_eq_nil in E as [-> _]. contradiction.
    - apply inv_seq in K1 as (g & r & -> & K1 & _). apply inv_plus in K1 as (us & wss & -> & K1 & _). apply inv_seq in K1 as (g & r' & -> & K1 & _).
      apply inv_plus in K1 as (us & wss' & -> & K1 & _). apply X in K1. destruct us; [contradiction|discriminate]. }
  apply (typed_items1 (N "atomic_function_skeleton") (N "f_type_def") (fun seen l => ns (tl_functions seen l))) in K1.
  - destruct K1 as (l & [-> G] & O). exists l. split; [unfold section_sx; split; [words|goods]|]. unfold functions_section. destruct l as [|x l]; [now destruct NE|].
    apply ns_bind; auto. intros toks E. destruct (tlf_written _ _ E) as (out & W). destruct (tlf_assigned _ _ W _ E) as (groups & tail & -> & _).
    apply ns_except; [|discriminate]. apply ns_bind; [|intros; apply ns_name, names_within]. rewrite parse_typed_list_all. apply ns_name, add_all_within. intros; apply within_Ok.
  - intros. apply ns_Ok.
  - intros us K. apply fskeleton_tree in K as (l & Ts & Q). exists [SList l]. split; [now apply trees_one|]. intros seen r Or. cbn [app tl_functions].
    apply ns_bind; auto. intros. apply ns_bind; [apply Or|intros; apply ns_Ok].
  - intros us K. unrule K. unword K. subst. exists [SAtom (TWord "number")]. split; [split; [reflexivity|goods]|]. intros r Or. cbn [app tl_functions].
    change (String.eqb "-" "-" && true && String.eqb "number" "number") with true. cbv iota. apply ns_bind; [apply Or|intros; apply ns_Ok].
Qed.

(** * Actions and derived predicates *)
Definition nsM {A} (m : M A) : Prop := forall st, ns (snd (m st)).
Lemma nsM_ret {A} (r : res A) : ns r -> nsM (ret r).
Proof. intros H st. exact H. Qed.
Lemma nsM_reads {A} (f : dstate -> res A) : (forall st, ns (f st)) -> nsM (reads f).
Proof. intros H st. apply H. Qed.
Lemma nsM_modify f : nsM (modify f).
Proof. intros st. apply ns_Ok. Qed.
Lemma nsM_bind {A B} (m : M A) (k : A -> M B) : nsM m -> (forall st st' a, m st = (st', Ok a) -> ns (snd (k a st'))) -> nsM (bindM m k).
Proof.
  intros H K st. unfold bindM. specialize (H st). destruct (m st) as [st' [a|e]] eqn:E; [eapply K; eauto|]. cbn in *. unfold ns in *. congruence.
Qed.
Lemma nsM_bind' {A B} (m : M A) (k : A -> M B) : nsM m -> (forall a, nsM (k a)) -> nsM (bindM m k).
Proof. intros H K. apply nsM_bind; auto. intros. apply K. Qed.
Lemma nsM_mapM {A B} (f : A -> M B) l : Forall (fun x => nsM (f x)) l -> nsM (mapM f l).
Proof.
  induction 1 as [|x l H _ IH]; [intros st; apply ns_Ok|]. cbn [mapM]. apply nsM_bind'; auto. intros. apply nsM_bind'; auto. intros. intros st. apply ns_Ok.
Qed.
Lemma nsM_optM {A} (f : list sexp -> M A) o : (forall b, o = Some b -> nsM (f b)) -> nsM (optM f o).
Proof. intros H. destruct o as [b|]; cbn [optM]; [apply nsM_bind'; auto; intros; apply nsM_ret, ns_Ok|apply nsM_ret, ns_Ok]. Qed.
Lemma domain_ctx_ns st : ctx_ns (domain_ctx st).
Proof. split; cbn; [intros n; destruct (dict_get _ _ _); discriminate|]. intros l ts E. eapply typed_list_variable_ns; eauto. Qed.
Lemma problem_ctx_ns : ctx_ns problem_ctx.
Proof. split; cbn; [intros n; apply ns_name, mk_const_within|]. intros l ts ->. apply ns_Ok. Qed.

Lemma action_body_trees ws : D2 (N "action_body_def") ws -> exists l, trees ws l /\ forall st, ns (action_body l st).
Proof.
  intros H. unrule H. unseq H. subst. apply inv_opt in K, K0. rewrite app_nil_r.
  assert (X : forall st, ctx_ns (domain_ctx st)) by apply domain_ctx_ns.
  destruct K as [->|K], K0 as [->|K0].
  - exists []. split; [apply trees_nil|]. discriminate.
  - unseq K0. subst. apply effect_tree in K1 as (y & Ty & Q). exists [SAtom (TKw ":effect"); y]. split.
    + apply (trees_cons [":effect"]); [split; [reflexivity|good1]|]. rewrite app_nil_r. now apply trees_one.
    + intros st. cbn [action_body is_kw]. cbn [String.eqb Ascii.eqb Bool.eqb]. apply ns_bind; [now apply Q|discriminate].
  - unseq K. subst. apply pregd_tree in K1 as (y & Ty & Q). exists [SAtom (TKw ":precondition"); y]. rewrite app_nil_r. split.
    + apply (trees_cons [":precondition"]); [split; [reflexivity|good1]|]. rewrite app_nil_r. now apply trees_one.
    + intros st. cbn [action_body is_kw]. cbn [String.eqb Ascii.eqb Bool.eqb]. apply ns_bind; [now apply Q|discriminate].
  - apply inv_seq in K as (a & b & -> & A & K). apply (unlit "PRECONDITION" ":precondition" _ eq_refl) in A. apply inv_seq in K as (c & e & -> & C & K). apply inv_nil in K. subst.
    apply inv_seq in K0 as (a & b & -> & A & K). apply (unlit "EFFECT" ":effect" _ eq_refl) in A. apply inv_seq in K as (f & e & -> & F & K). apply inv_nil in K. subst.
    apply pregd_tree in C as (x & [-> Gx] & Qx). apply effect_tree in F as (y & [-> Gy] & Qy).
    exists [SAtom (TKw ":precondition"); x; SAtom (TKw ":effect"); y]. split; [split; [words|goods]|].
    intros st. cbn [action_body is_kw]. cbn [String.eqb Ascii.eqb Bool.eqb andb]. apply ns_bind; [now apply Qx|intros]. apply ns_bind; [now apply Qy|intros; apply ns_Ok].
Qed.
Lemma ns_iterR {A} (f : A -> res unit) l : (forall x, ns (f x)) -> ns (iterR f l).
Proof. intros H. induction l as [|x l IH]; [apply ns_Ok|]. cbn [iterR]. apply ns_bind; auto. Qed.
Lemma check_subtypes_ns types l r : ns (check_subtypes types l r).
Proof.
  destruct r as [|g r]; [apply ns_Ok|]. apply ns_iterR. intros x.
  assert (Q : forall p r', subtype_step types x (g :: r) p = inr r' -> ns r').
  { intros p r'. unfold subtype_step. destruct p as [p|]; [|intros [= <-]; discriminate].
    destruct (memb String.eqb p (g :: r)); [intros [= <-]; apply ns_Ok|]. destruct types; [discriminate|intros [= <-]; discriminate]. }
  unfold check_subtype. cbn [loop].
  destruct (subtype_step types x (g :: r) (Some x)) as [p|r'] eqn:E1; [|eauto].
  destruct (subtype_step types x (g :: r) p) as [p'|r'] eqn:E2; [|eauto].
  destruct (subtype_step types x (g :: r) p') as [p''|r'] eqn:E3; [discriminate|eauto].
Qed.
Lemma head_types_ns types head : forall m def, ns (head_types types m head def).
Proof.
  induction head as [|t head IH]; intros m def; [destruct def; apply ns_Ok|]. destruct def as [|d def]; [apply ns_Ok|]. cbn [head_types].
  destruct t as [|v]; [discriminate|]. destruct (v_tags v); [apply IH|]. apply ns_bind; [apply check_subtypes_ns|intros; apply IH].
Qed.
Lemma derived_callback_ns st h c : no_effect c -> ns (derived_callback st h c).
Proof.
  intros NE. unfold derived_callback. destruct (dict_get String.eqb (fst h) (s_predicates st)); [|discriminate].
  apply ns_bind; [apply ns_check; discriminate|intros _ _]. apply ns_bind; [apply head_types_ns|intros m _].
  apply ns_bind; [apply ns_name, update_within; exact Logic.I|intros p _]. apply ns_bind; [now apply ns_name, update_within|intros c' _]. destruct p; discriminate.
Qed.
Lemma mk_action_ns n ps a b : ns (mk_action n ps a b).
Proof. apply ns_bind; [apply ns_name, parse_name_within|intros; apply ns_Ok]. Qed.
Lemma structure_tree ws : D2 (N "structure_def") ws -> exists k b, In k [":action"; ":derived"] /\ tree ws (section_sx k b) /\ nsM (structure_def (section_sx k b)).
Proof.
  intros H. unrule H. unalt H; unrule H; unseq H; subst.
  - unrule K3. apply inv_seq in K3 as (a & b & -> & A & K). apply (unlit "LPAR" "(" _ eq_refl) in A. apply inv_seq in K as (ps & e & -> & P0 & K).
    apply inv_seq in K as (c & e' & -> & C & K). apply (unlit "RPAR" ")" _ eq_refl) in C. apply inv_nil in K. subst.
    apply typed_vars_trees in P0 as (l & [-> G] & ts & E). apply action_body_trees in K4 as (bd & [-> Gb] & Q).
    exists ":action", (SAtom (TWord w) :: SAtom (TKw ":parameters") :: SList l :: bd). split; [now left|]. unfold section_sx. split; [split; [words|goods]|].
    cbn [structure_def is_kw]. change (String.eqb ":action" ":action") with true. cbv iota. apply nsM_bind'; [|intros; apply nsM_ret, ns_Ok].
    unfold action_def. cbn [is_kw]. change (String.eqb ":parameters" ":parameters") with true. cbv iota.
    apply nsM_bind'.
    + unfold action_parameters. apply nsM_bind'; [apply nsM_ret; eapply typed_list_variable_ns; eauto|intros]. apply nsM_bind'; [apply nsM_ret, ns_name, mk_vars_within|intros].
      cbn zeta. apply nsM_bind'; [apply nsM_modify|intros; apply nsM_ret, ns_Ok].
    + intros. apply nsM_bind'; [apply nsM_reads, Q|intros]. apply nsM_ret, mk_action_ns.
  - apply skeleton_tree in K1 as (h & [-> Gh] & Qh). apply gd_tree' in K2 as (x & [-> Gx] & Qx).
    exists ":derived", [h; x]. split; [right; now left|]. unfold section_sx. split; [split; [words|goods]|].
    cbn [structure_def is_kw]. change (String.eqb ":action" ":derived") with false. change (String.eqb ":derived" ":derived") with true. cbv iota. apply nsM_bind'; [|intros; apply nsM_ret, ns_Ok].
    cbn [derived_def]. apply nsM_bind'; [now apply nsM_ret|intros head]. apply nsM_bind; [apply nsM_reads; intros; apply Qx, domain_ctx_ns|].
    intros st st' cd E. apply reads_Ok in E as [-> E]. cbn [reads snd]. apply derived_callback_ns. eapply gd_no_effect; eauto.
Qed.

(** * Whole domains, problems and plans *)
Lemma opt_tree k R0 (Q : list sexp -> Prop) ws : (forall us, D2 (N R0) us -> exists b, tree us (section_sx k b) /\ Q b) -> D2 (Opt (N R0)) ws ->
  exists o, trees ws (opt_section k o) /\ forall b, o = Some b -> Q b.
Proof.
  intros IH H. apply inv_opt in H as [->|H]; [exists None; split; [apply trees_nil|discriminate]|].
  apply IH in H as (b & Tb & Qb). exists (Some b). split; [now apply trees_one|]. now intros b' [= <-].
Qed.
Lemma structure_some s st st' a : structure_def s st = (st', Ok (inl a)) -> a_pre a <> None /\ a_eff a <> None.
Proof. apply RaiseParse_facts.structure_some. Qed.
Lemma domain_tree ws : D2 (N "domain") ws -> exists l, trees ws l /\ nsM (parse_domain_sexp l).
Proof.
  intros H. unrule H. unseq H. subst. unrule K1. apply inv_seq in K1 as (a & b & -> & A & K). apply (unlit "LPAR" "(" _ eq_refl) in A.
  apply inv_seq in K as (a' & b' & -> & A' & K). apply (unlit "DOMAIN" "domain" _ eq_refl) in A'. apply inv_seq in K as (a2 & b2 & -> & A2 & K). apply unname in A2 as (n & -> & Mn & _).
  apply inv_seq in K as (a3 & b3 & -> & A3 & K). apply (unlit "RPAR" ")" _ eq_refl) in A3. apply inv_nil in K. subst.
  apply (opt_tree ":requirements" _ _ _ requirements_tree) in K2 as (o1 & T1 & Q1).
  apply (opt_tree ":types" _ _ _ (fun us => names_section_tree ":types" "TYPES" "types" us eq_refl eq_refl eq_refl)) in K3 as (o2 & T2 & Q2).
  apply (opt_tree ":constants" _ _ _ (fun us => names_section_tree ":constants" "CONSTANTS" "constants" us eq_refl eq_refl eq_refl)) in K4 as (o3 & T3 & Q3).
  apply (opt_tree ":predicates" _ _ _ predicates_tree) in K5 as (o4 & T4 & Q4).
  apply (opt_tree ":functions" _ _ _ functions_tree) in K6 as (o5 & T5 & Q5).
  apply inv_star in K7 as (wss & -> & F).
  assert (X : exists l5, trees (concat wss) l5 /\ heads [":action"; ":derived"] l5 /\ Forall (fun s => nsM (structure_def s)) l5).
  { clear -F. induction F as [|w wss H _ (l & Tl & _ & Ql)]; [exists []; split; [apply trees_nil|split; [exact Logic.I|constructor]]|].
    apply structure_tree in H as (k & b & Ik & Tb & Qb). exists (section_sx k b :: l). split; [now apply trees_cons|]. split; [|auto]. exists k, b. auto. }
  destruct X as (l5 & T6 & Hd & Q6).
  remember (opt_section ":requirements" o1 ++ opt_section ":types" o2 ++ opt_section ":constants" o3 ++ opt_section ":predicates" o4 ++ opt_section ":functions" o5 ++ l5) as secs eqn:Eq.
  assert (Ts : trees (u2 ++ u3 ++ u4 ++ u5 ++ u6 ++ concat wss) secs) by (rewrite Eq; repeat apply trees_app; auto). destruct Ts as [Es Gs].
  exists [SList (SAtom (TWord "define") :: SList [SAtom (TWord "domain"); SAtom (TWord n)] :: secs)]. split.
  - split; [words; rewrite <- Es; now rewrite <- !app_assoc|goods].
  - clear Es Gs. unfold parse_domain_sexp. change (String.eqb "define" "define" && String.eqb "domain" "domain") with true. cbv iota. unfold domain_rule. subst secs.
    assert (H4 := heads_opt ":functions" o5 _ _ Hd). assert (H3 := heads_opt ":predicates" o4 _ _ H4). assert (H2 := heads_opt ":constants" o3 _ _ H3). assert (H1 := heads_opt ":types" o2 _ _ H2).
    rewrite (section_opt _ o1 _ _ H1) by (cbn; intuition discriminate). apply nsM_bind'.
    { apply nsM_optM. intros b Eb. apply nsM_bind'; [apply nsM_ret; auto|intros]. apply nsM_bind'; [apply nsM_modify|intros; apply nsM_ret, ns_Ok]. }
    intros rs. rewrite (section_opt _ o2 _ _ H2) by (cbn; intuition discriminate). apply nsM_bind'.
    { apply nsM_optM. intros b Eb. apply nsM_bind'; [apply nsM_ret; auto|intros]. apply nsM_bind'; [apply nsM_reads; intros; apply ns_check; discriminate|intros].
      cbn zeta. apply nsM_bind'; [apply nsM_reads; intros; apply ns_check; discriminate|intros]. apply nsM_bind'; [apply nsM_modify|intros; apply nsM_ret, ns_Ok]. }
    intros ty. rewrite (section_opt _ o3 _ _ H3) by (cbn; intuition discriminate). apply nsM_bind'.
    { apply nsM_optM. intros b Eb. apply nsM_bind'; [apply nsM_ret; auto|intros]. apply nsM_bind'; [apply nsM_ret, ns_name, constants_within|intros]. apply nsM_bind'; [apply nsM_modify|intros; apply nsM_ret, ns_Ok]. }
    intros cs. rewrite (section_opt _ o4 _ _ H4) by (cbn; intuition discriminate). apply nsM_bind'.
    { apply nsM_optM. intros b Eb. destruct (Q4 b Eb) as [N4 Q4']. apply nsM_bind'; [apply nsM_ret; now destruct b|intros]. apply nsM_bind'; [apply nsM_modify|intros; apply nsM_ret, ns_Ok]. }
    intros ps. rewrite (section_opt _ o5 _ _ Hd) by (cbn; intuition discriminate). apply nsM_bind'.
    { apply nsM_optM. intros b Eb. apply nsM_ret; auto. }
    intros fs. apply nsM_bind; [now apply nsM_mapM|]. intros st st' xs Ex. cbn zeta. apply (nsM_bind' (modify (set_types None))); [apply nsM_modify|]. intros _. apply nsM_ret.
    apply ns_name, mk_domain_within. apply Forall_forall. intros a Ha. apply in_flat_map in Ha as ([b|b] & Hx & Ha); [|destruct Ha]. destruct Ha as [->|[]]. apply mapM_runs in Ex.
    destruct (runs_In _ (fun _ => True) _ _ _ _ _ Ex Logic.I (fun _ _ _ _ _ _ _ => Logic.I) Hx) as (x & s & s' & _ & _ & R0). eapply structure_some; eassumption.
Qed.

Lemma names_words us : D2 (Star (T "NAME")) us -> exists gs, trees us (map name_sx gs).
Proof.
  intros H. apply inv_star in H as (wss & -> & F). induction F as [|w wss H _ (gs & Tg)]; [exists []; apply trees_nil|].
  apply unname in H as (n & -> & M & _). exists (n :: gs). cbn [concat map]. apply (trees_cons [n]); auto. split; [reflexivity|]. unfold name_sx. good1.
Qed.
Lemma bft_tree ws : D2 (N "basic_function_term") ws -> exists s, tree ws s /\ ns (basic_function_term s) /\ ns (metric_f_exp s).
Proof.
  intros H. unrule H. unalt H.
  - apply unname in H as (n & -> & M & _). exists (SAtom (TWord n)). split; [split; [reflexivity|good1]|]. split; apply ns_name, mk_numfun_within.
  - unseq H. subst. apply names_words in K1 as (gs & [-> G]). exists (SList (SAtom (TWord w) :: map name_sx gs)). split; [split; [words|goods]|].
    assert (X : ns (basic_function_term (SList (SAtom (TWord w) :: map name_sx gs)))).
    { cbn [basic_function_term]. unfold name_sx. rewrite mapO_words. cbn [of_opt bind]. apply ns_bind; [apply ns_mapR; intros; apply ns_name, mk_const_within|intros; apply ns_name, mk_numfun_within]. }
    split; exact X.
Qed.
Lemma afn_tree ws : D2 (N "atomic_formula_name") ws -> exists w args, tree ws (SList (SAtom (TWord w) :: args)) /\ ~ In w reserved /\ forall objs, ns (atomic_formula_name objs (SList (SAtom (TWord w) :: args))).
Proof.
  intros H. unrule H. unseq H. subst. unrule K0. apply unname in K0 as (w & -> & M & NR). apply names_words in K1 as (gs & [-> G]). exists w, (map name_sx gs). split; [split; [words|goods]|].
  split; auto. intros objs. cbn [atomic_formula_name]. unfold name_sx. rewrite mapO_words. cbn [of_opt bind].
  apply ns_bind; [apply ns_mapR; intros x _; destruct (dict_get _ _ _); [apply ns_Ok|apply ns_name, mk_const_within]|intros; apply ns_name, mk_pred_within].
Qed.
Lemma init_tree ws : D2 (N "init_el") ws -> exists s, tree ws s /\ forall objs, ns (init_el objs s).
Proof.
  intros H. unrule H. unalt H.
  - unrule H. unalt H.
    + apply afn_tree in H as (w & args & Ts & NR & Q). eexists. split; [exact Ts|]. intros objs. cbn [init_el]. nr NR "not". apply Q.
    + unseq H. subst. apply afn_tree in K1 as (w & args & [-> G] & NR & Q). exists (SList [SAtom (TWord "not"); SList (SAtom (TWord w) :: args)]). split; [split; [words|goods]|].
      intros objs. cbn [init_el]. change (String.eqb "not" "not") with true. cbv iota. apply ns_bind; [apply Q|intros; apply ns_Ok].
  - unseq H. subst. apply bft_tree in K1 as (f & [-> G] & Q & _). unrule K2. apply unnum in K2 as (v & -> & Nv). exists (SList [SAtom (TOp "="); f; SAtom (TNum v)]). split; [split; [words|goods]|].
    intros objs. cbn [init_el]. change (String.eqb "=" "=") with true. cbv iota. apply ns_bind; auto. intros. apply ns_bind; [apply num_literal_ns|intros; apply ns_Ok].
Qed.
Lemma metric_exp_tree n : forall ws, length ws <= n -> D2 (N "metric_f_exp") ws -> exists s, tree ws s /\ ns (metric_f_exp s).
Proof.
  induction n as [|n IH]; intros ws Hn H.
  { destruct ws; [|cbn in Hn; lia]. exfalso. unrule H. unalt H; try (unseq H; subst; discriminate).
    - apply bft_tree in H as (s & [E _] & _). symmetry in E. now apply ww_nonempty in E.
    - apply unnum in H as (? & ? & _). discriminate. }
  unrule H.
  assert (Ar : D2 (Alt [Seq [L; N "binary_op"; N "metric_f_exp"; N "metric_f_exp"; R]; Seq [L; N "multi_op"; N "metric_f_exp"; Plus (N "metric_f_exp"); R]; Seq [L; T "MINUS"; N "metric_f_exp"; R]]) ws -> exists s, tree ws s /\ ns (metric_f_exp s)).
  { intros A. destruct (arith_tree (N "metric_f_exp") (fun s => ns (metric_f_exp s)) ws) as (o & args & k & Ts & Eo & F); auto; [intros us Lu; apply IH; lia|].
    exists (SList (SAtom (TOp o) :: args)). split; auto. cbn [metric_f_exp]. rewrite Eo. apply ns_bind; [now apply ns_mapR_F|intros; apply ns_Ok]. }
  apply inv_alt in H as (e & I & H). destruct I as [<-|[<-|[<-|[<-|[<-|[]]]]]].
  - apply Ar. eapply D_Alt; [|exact H]. cbn. tauto.
  - apply Ar. eapply D_Alt; [|exact H]. cbn. tauto.
  - apply Ar. eapply D_Alt; [|exact H]. cbn. tauto.
  - apply bft_tree in H as (s & Ts & _ & Q). eauto.
  - apply unnum in H as (w & -> & Nw). exists (SAtom (TNum w)). split; [split; [reflexivity|good1]|apply ns_Ok].
Qed.
Lemma metric_tree ws : D2 (N "metric_spec") ws -> exists b, tree ws (section_sx ":metric" b) /\ ns (metric_spec b).
Proof.
  intros H. unrule H. unseq H. subst. apply (metric_exp_tree (length u2)) in K2 as (e & [-> G] & Q); auto.
  assert (O : exists o, u1 = [o] /\ In o ["maximize"; "minimize"]) by (unrule K1; unalt K1; unword K1; subst; eexists; (split; [reflexivity|cbn; tauto])).
  destruct O as (o & -> & Io). exists [SAtom (TWord o); e]. unfold section_sx. split; [split; [words|goods; destruct Io as [<-|[<-|[]]]; good1]|].
  cbn [metric_spec]. assert (B : memb String.eqb o ["maximize"; "minimize"] = true) by (destruct Io as [<-|[<-|[]]]; reflexivity). rewrite B.
  apply ns_bind; auto. intros f _. unfold mk_metric. rewrite B. apply ns_Ok.
Qed.
Lemma objects_section_ns b : ns (typed_list_name b) -> ns (objects_section b).
Proof. intros H. apply ns_bind; auto. intros. apply ns_name, constants_within. Qed.
Lemma ns_opt_res {A} (f : list sexp -> res A) o : (forall b, o = Some b -> ns (f b)) -> ns (opt_res f o).
Proof. intros H. destruct o as [b|]; cbn; [apply ns_bind; auto; intros; apply ns_Ok|apply ns_Ok]. Qed.
Lemma named_words T0 k R0 ws : assoc R0 plain_rules = Some (Seq [L; T T0; T "NAME"; R]) -> assoc T0 terminals = Some (Lit k) -> D2 (N R0) ws -> exists n, ws = ["("; k; n; ")"] /\ matches Name n.
Proof.
  intros A1 A2 K. apply (unN _ _ _ A1) in K. apply inv_seq in K as (a & b & -> & A & K). apply (unlit "LPAR" "(" _ eq_refl) in A.
  apply inv_seq in K as (a' & b' & -> & A' & K). apply (unlit _ _ _ A2) in A'. apply inv_seq in K as (a2 & b2 & -> & A3 & K). apply unname in A3 as (n & -> & Mn & _).
  apply inv_seq in K as (a3 & b3 & -> & A3 & K). apply (unlit "RPAR" ")" _ eq_refl) in A3. apply inv_nil in K. subst. exists n. auto.
Qed.
Lemma problem_tree ws : D2 (N "problem") ws -> exists l, trees ws l /\ forall objs0, ns (parse_problem_sexp objs0 l).
Proof.
  intros H. unrule H. unseq H. subst. apply (named_words "PROBLEM" "problem" "problem_def" _ eq_refl eq_refl) in K1 as (n & -> & Mn). apply (named_words "DOMAIN_P" ":domain" "problem_domain" _ eq_refl eq_refl) in K2 as (dn & -> & Mdn).
  apply (opt_tree ":requirements" _ _ _ requirements_tree) in K3 as (o1 & T1 & Q1).
  apply (opt_tree ":objects" _ _ _ (fun us => names_section_tree ":objects" "OBJECTS" "objects" us eq_refl eq_refl eq_refl)) in K4 as (o2 & T2 & Q2).
  apply (opt_tree ":metric" _ _ _ metric_tree) in K7 as (o5 & T5 & Q5).
  unrule K5. apply inv_seq in K5 as (a & b & -> & A & K). apply (unlit "LPAR" "(" _ eq_refl) in A. apply inv_seq in K as (a' & b' & -> & A' & K). apply (unlit "INIT" ":init" _ eq_refl) in A'.
  apply inv_seq in K as (a2 & b2 & -> & A2 & K). apply inv_seq in K as (a3 & b3 & -> & A3 & K). apply (unlit "RPAR" ")" _ eq_refl) in A3. apply inv_nil in K. subst.
  apply (sub_all (N "init_el") (fun s => forall objs, ns (init_el objs s)) (")" :: a2)) in A2 as (inits & [-> Gi] & Qi); [|intros; now apply init_tree|cbn; lia].
  unrule K6. apply inv_seq in K6 as (a & b & -> & A & K). apply (unlit "LPAR" "(" _ eq_refl) in A. apply inv_seq in K as (a' & b' & -> & A' & K). apply (unlit "GOAL" ":goal" _ eq_refl) in A'.
  apply inv_seq in K as (a2 & b2 & -> & A2 & K). apply inv_seq in K as (a3 & b3 & -> & A3 & K). apply (unlit "RPAR" ")" _ eq_refl) in A3. apply inv_nil in K. subst.
  apply gd_tree' in A2 as (g & [-> Gg] & Qg).
  destruct T1 as [-> G1], T2 as [-> G2], T5 as [-> G5].
  exists [SList (SAtom (TWord "define") :: SList [SAtom (TWord "problem"); SAtom (TWord n)] :: SList [SAtom (TKw ":domain"); SAtom (TWord dn)] ::
      opt_section ":requirements" o1 ++ opt_section ":objects" o2 ++ section_sx ":init" inits :: section_sx ":goal" [g] :: opt_section ":metric" o5)]. split.
  - unfold section_sx. split; [words; rewrite !wl_app; words; rewrite !wl_cons; words|goods].
  - intros objs0. unfold parse_problem_sexp. change (String.eqb "define" "define" && String.eqb "problem" "problem" && is_kw ":domain" (SAtom (TKw ":domain"))) with true. cbv iota. unfold problem_rule.
    assert (H2 : heads [":init"] (section_sx ":init" inits :: section_sx ":goal" [g] :: opt_section ":metric" o5)) by (exists ":init", inits; split; [now left|reflexivity]).
    assert (H1 := heads_opt ":objects" o2 _ _ H2).
    rewrite (section_opt _ o1 _ _ H1) by (cbn; intuition discriminate). apply ns_bind; [now apply ns_opt_res|intros rs _].
    rewrite (section_opt _ o2 _ _ H2) by (cbn; intuition discriminate). apply ns_bind; [apply ns_opt_res; intros; apply objects_section_ns; auto|intros os _].
    cbn [section section_sx is_kw]. change (String.eqb ":init" ":init") with true. cbv iota. apply ns_bind; [rewrite Forall_forall in Qi; apply ns_mapR; intros; now apply Qi|intros init _].
    change (String.eqb ":goal" ":goal") with true. cbv iota. apply ns_bind; [apply Qg, problem_ctx_ns|intros goal _].
    pose proof (section_opt ":metric" o5 [] [] Logic.I (fun x => x)) as S5. rewrite app_nil_r in S5. rewrite S5. apply ns_bind; [now apply ns_opt_res|intros m _]. apply ns_name, mk_problem_within.
Qed.
Lemma plan_trees ws : D2 (N "plan") ws -> exists l, trees ws l /\ ns (mapR ground_action l).
Proof.
  intros H. unrule H. apply inv_star in H as (wss & -> & F).
  destruct (@trees_all (fun s => ns (ground_action s)) wss) as (l & Tl & Ql & _); [|exists l; split; [auto|now apply ns_mapR_F]].
  eapply Forall_impl; [|exact F]. intros w H. unrule H. unseq H. subst. unrule K0. apply unname in K0 as (v & -> & M & _). apply names_words in K1 as (gs & [-> G]).
  exists (SList (SAtom (TWord v) :: map name_sx gs)). split; [split; [words|goods]|]. cbn [ground_action]. unfold name_sx. rewrite mapO_words. cbn [of_opt bind].
  apply ns_bind; [apply ns_mapR; intros; apply ns_name, mk_const_within|intros; apply ns_Ok].
Qed.

(** * Texts *)
Lemma text_trees ws l s : spelled ws s -> trees ws l -> read_text s = Some l.
Proof.
  intros Sp [-> G]. apply spelled_lex in Sp as [_ E]. unfold read_text. rewrite E.
  assert (X : Forall sx_ok l /\ map tok (wl l) = flat_map flat l).
  { clear -G. induction G as [|x l Gx _ [IH1 IH2]]; [split; [apply Forall_nil|reflexivity]|]. apply good_ok in Gx as [X1 X2]. split; [now apply Forall_cons|]. rewrite wl_cons, map_app. cbn [flat_map]. now rewrite X2, IH2. }
  destruct X as [X1 ->]. now apply read_flats.
Qed.
Lemma domain_text_ns s : in_plain_grammar "domain" s -> forall st, snd (parse_domain s st) <> Err LarkSyntaxError.
Proof. intros (ws & Sp & H) st. apply domain_tree in H as (l & Tl & Q). unfold parse_domain. rewrite (text_trees _ _ _ Sp Tl). apply Q. Qed.
Lemma problem_text_ns s : in_plain_grammar "problem" s -> forall objs0, parse_problem_from objs0 s <> Err LarkSyntaxError.
Proof. intros (ws & Sp & H) st. apply problem_tree in H as (l & Tl & Q). unfold parse_problem_from. rewrite (text_trees _ _ _ Sp Tl). apply Q. Qed.
Lemma plan_text_ns s : in_plain_grammar "plan" s -> parse_plan s <> Err LarkSyntaxError.
Proof. intros (ws & Sp & H). apply plan_trees in H as (l & Tl & Q). unfold parse_plan. rewrite (text_trees _ _ _ Sp Tl). apply Q. Qed.

(** * Plans: all of the grammar *)
Lemma rules_nodup' : NoDup (map fst rules).
Proof. apply nodup_b. vm_compute. reflexivity. Qed.
Lemma unN' n e ws : assoc n rules = Some e -> D (N n) ws -> D e ws.
Proof. intros H K. apply inv_N in K as (e' & I & K). apply (NoDup_assoc _ _ _ rules_nodup') in I. congruence. Qed.
Lemma unlit' t w ws : assoc t terminals = Some (Lit w) -> D (T t) ws -> ws = [w].
Proof.
  intros H K. apply inv_T in K as (w' & -> & (p & I & M)). apply (NoDup_assoc _ _ _ terminals_nodup) in I.
  assert (p = Lit w) by congruence. subst p. cbn in M. now subst.
Qed.
Lemma unname' ws : D (T "NAME") ws -> exists w, ws = [w] /\ matches Name w.
Proof. intros K. apply inv_T in K as (w & -> & (p & I & M)). apply (NoDup_assoc _ _ _ terminals_nodup) in I. injection I as <-. exists w. auto. Qed.
Lemma plan_all s : in_grammar "plan" s -> parse_plan s <> Err LarkSyntaxError.
Proof.
  intros (ws & Sp & H). unfold parse_plan. apply (unN' "plan" _ _ eq_refl) in H. apply inv_star in H as (wss & -> & F).
  destruct (@trees_all (fun s => ns (ground_action s)) wss) as (l & Tl & Ql & _); [|rewrite (text_trees _ _ _ Sp Tl); now apply ns_mapR_F].
  eapply Forall_impl; [|exact F]. clear. intros w H. apply (unN' "ground_action" _ _ eq_refl) in H.
  apply inv_seq in H as (a & b & -> & A & K). apply (unlit' "LPAR" "(" _ eq_refl) in A. apply inv_seq in K as (a2 & b2 & -> & A2 & K). apply (unN' "predicate" _ _ eq_refl) in A2. apply unname' in A2 as (v & -> & M).
  apply inv_seq in K as (a3 & b3 & -> & A3 & K). apply inv_seq in K as (a4 & b4 & -> & A4 & K). apply (unlit' "RPAR" ")" _ eq_refl) in A4. apply inv_nil in K. subst.
  assert (X : exists gs, trees a3 (map name_sx gs)).
  { apply inv_star in A3 as (wss & -> & F). clear -F. induction F as [|w wss H _ (gs & Tg)]; [exists []; apply trees_nil|].
    apply unname' in H as (n & -> & M). exists (n :: gs). cbn [concat map]. apply (trees_cons [n]); auto. split; [reflexivity|]. unfold name_sx. good1. }
  destruct X as (gs & [-> G]).
  exists (SList (SAtom (TWord v) :: map name_sx gs)). split; [split; [words|goods]|]. cbn [ground_action]. unfold name_sx. rewrite mapO_words. cbn [of_opt bind].
  apply ns_bind; [apply ns_mapR; intros; apply ns_name, mk_const_within|intros; apply ns_Ok].
Qed.
