(** The trees of Spec_Lark.v: their words as trees of parentheses, and what they are worth. *)
From Coq Require Import String Ascii List Bool NArith Arith Lia.
From Verif Require Import Py Names Reqs Logic Validation Core Lexer TypedList UpdateTags Parser Py_facts Names_facts Lex_facts
     GD_facts Spec_Grammar Words_facts Grammar_facts GrammarText_facts GrammarAll_facts Lark Spec_Lark LarkMain_facts Callbacks.
Import ListNotations.
Open Scope string_scope.
Open Scope list_scope.

Notation TT := (Spec_Lark.tree word_at).

(** * Inversion *)
Lemma next_app (u v : tokens) nx : next (u ++ v) nx = next u (next v nx).
Proof. destruct u; reflexivity. Qed.
Lemma t_seq e l cs w nx : TT (Seq (e :: l)) cs w nx ->
  exists c1 c2 u v, cs = c1 ++ c2 /\ w = u ++ v /\ TT e c1 u (next v nx) /\ TT (Seq l) c2 v nx.
Proof. inversion 1; subst. exists c1, c2, u, v. auto. Qed.
Lemma t_nil cs w nx : TT (Seq []) cs w nx -> cs = [] /\ w = [].
Proof. inversion 1; auto. Qed.
Lemma t_alt l cs w nx : TT (Alt l) cs w nx -> exists e, In e l /\ TT e cs w nx.
Proof. inversion 1; subst. eauto. Qed.
Lemma t_opt e cs w nx : TT (Opt e) cs w nx -> (cs = repeat PNone (holes e) /\ w = []) \/ TT e cs w nx.
Proof. inversion 1; subst; auto. Qed.
Lemma t_T t cs w nx : TT (T t) cs w nx -> exists x, word_at t x /\ cs = (if dropped t then [] else [PLeaf x]) /\ w = [(base t, x)].
Proof. inversion 1; subst. eauto. Qed.
Definition rules_of (n : string) := filter (fun r => String.eqb (fst (fst r)) n) lark_rules.
Lemma t_N n cs w nx : TT (N n) cs w nx -> exists e no cs', cs = [PNode (base n) cs'] /\ In (n, e, no) (rules_of n) /\ allowed word_at no nx /\ TT e cs' w nx.
Proof.
  inversion 1; subst. exists e, no, cs0. split; [reflexivity|]. split; [|auto]. apply filter_In. split; [assumption|apply String.eqb_refl].
Qed.
Lemma t_rule n e no cs w nx : rules_of n = [(n, e, no)] -> TT (N n) cs w nx ->
  exists cs', cs = [PNode (base n) cs'] /\ allowed word_at no nx /\ TT e cs' w nx.
Proof. intros E H. apply t_N in H as (e' & no' & cs' & -> & I & A & H). rewrite E in I. destruct I as [I|[]]. inversion I; subst. eauto. Qed.
Lemma t_lit t l cs w nx : assoc t terminals = Some (Lit l) -> base t = t -> dropped t = false -> TT (T t) cs w nx -> cs = [PLeaf l] /\ w = [(t, l)].
Proof.
  intros E B Dr H. apply t_T in H as (x & ((p & I & M) & _) & -> & ->). rewrite Dr, B in *. apply (NoDup_assoc _ _ _ terminals_nodup) in I.
  assert (p = Lit l) by congruence. subst p. cbn in M. subst. auto.
Qed.
Lemma t_qmark cs w nx : TT (T "?") cs w nx -> cs = [] /\ w = [("?", "?")].
Proof.
  intros H. apply t_T in H as (x & ((p & I & M) & _) & -> & ->). apply (NoDup_assoc _ _ _ terminals_nodup) in I. cbn in I. inversion I; subst. cbn in M. subst. auto.
Qed.
Lemma t_name t cs w nx : base t = "NAME" -> dropped t = false -> TT (T t) cs w nx ->
  exists x, cs = [PLeaf x] /\ w = [("NAME", x)] /\ matches Name x /\ ~ In x (taken t).
Proof.
  intros B Dr H. apply t_T in H as (x & ((p & I & M) & NT) & -> & ->). rewrite Dr, B in *. apply (NoDup_assoc _ _ _ terminals_nodup) in I. inversion I; subst. exists x. auto.
Qed.
Lemma t_num cs w nx : TT (T "NUMBER") cs w nx -> exists x, cs = [PLeaf x] /\ w = [("NUMBER", x)] /\ number x.
Proof.
  intros H. apply t_T in H as (x & ((p & I & M) & _) & -> & ->). apply (NoDup_assoc _ _ _ terminals_nodup) in I. inversion I; subst. exists x. auto.
Qed.
(** repetitions, from left to right *)
Inductive many (e : sym) : list ptree -> tokens -> string * string -> Prop :=
| many_nil nx : many e [] [] nx
| many_cons c1 c2 u v nx : TT e c1 u (next v nx) -> many e c2 v nx -> many e (c1 ++ c2) (u ++ v) nx.
Lemma many_one e c u nx : TT e c u nx -> many e c u nx.
Proof. intros H. rewrite <- (app_nil_r c), <- (app_nil_r u). apply many_cons; [exact H|apply many_nil]. Qed.
Lemma many_snoc e c1 u v nx : many e c1 u (next v nx) -> forall c2, TT e c2 v nx -> many e (c1 ++ c2) (u ++ v) nx.
Proof.
  remember (next v nx) as n. intros H. revert Heqn. induction H as [nx'|a b u1 v1 nx' H1 H2 IH]; intros E c2 K; subst.
  - now apply many_one.
  - rewrite <- !app_assoc. apply many_cons; [now rewrite next_app|auto].
Qed.
Lemma t_plus e cs w nx : TT (Plus e) cs w nx -> exists c1 c2 u v, cs = c1 ++ c2 /\ w = u ++ v /\ TT e c1 u (next v nx) /\ many e c2 v nx.
Proof.
  remember (Plus e) as p. intros H. induction H; try discriminate; injection Heqp as ->.
  - exists cs, [], w, []. rewrite !app_nil_r. repeat split; auto. apply many_nil.
  - destruct IHtree1 as (a & b & u1 & v1 & -> & -> & H1 & H2); auto. exists a, (b ++ c2), u1, (v1 ++ v). rewrite <- !app_assoc. repeat split; auto.
    + now rewrite next_app.
    + now apply many_snoc.
Qed.
Lemma t_star e cs w nx : TT (Star e) cs w nx -> many e cs w nx.
Proof.
  inversion 1; subst; [apply many_nil|]. match goal with H : TT (Plus _) _ _ _ |- _ => apply t_plus in H as (c1 & c2 & u & v & -> & -> & H1 & H2) end. now apply many_cons.
Qed.

Ltac tword K :=
  unfold L, R in K;
  lazymatch type of K with
  | Spec_Lark.tree _ (T "?") _ _ _ => let E1 := fresh "Ec" in let E2 := fresh "Ew" in apply t_qmark in K as [E1 E2]
  | Spec_Lark.tree _ (T "NUMBER") _ _ _ => let x := fresh "x" in let E1 := fresh "Ec" in let E2 := fresh "Ew" in let M := fresh "M" in apply t_num in K as (x & E1 & E2 & M)
  | Spec_Lark.tree _ (T ?t) _ _ _ =>
      let b := eval vm_compute in (base t) in
      lazymatch b with
      | "NAME" => let x := fresh "x" in let E1 := fresh "Ec" in let E2 := fresh "Ew" in let M := fresh "M" in let NT := fresh "NT" in apply (t_name t _ _ _ eq_refl eq_refl) in K as (x & E1 & E2 & M & NT)
      | _ => let E1 := fresh "Ec" in let E2 := fresh "Ew" in apply (t_lit t _ _ _ _ eq_refl eq_refl eq_refl) in K as [E1 E2]
      end
  end.
Ltac trule H :=
  lazymatch type of H with
  | Spec_Lark.tree _ (N ?n) _ _ _ =>
      let r := eval vm_compute in (rules_of n) in
      lazymatch r with [(_, ?e, ?no)] =>
        let cs := fresh "cs" in let E := fresh "Ec" in let A := fresh "Al" in
        apply (t_rule n e no _ _ _ eq_refl) in H as (cs & E & A & H); cbn [base Ascii.eqb Bool.eqb] in E end
  end.
Ltac tseq H :=
  lazymatch type of H with
  | Spec_Lark.tree _ (Seq []) _ _ _ => let E1 := fresh "Ec" in let E2 := fresh "Ew" in apply t_nil in H as [E1 E2]
  | Spec_Lark.tree _ (Seq (?e :: _)) _ _ _ =>
      let c1 := fresh "c" in let c2 := fresh "d" in let u := fresh "u" in let v := fresh "v" in let K := fresh "K" in let E1 := fresh "Ec" in let E2 := fresh "Ew" in
      apply t_seq in H as (c1 & c2 & u & v & E1 & E2 & K & H); try tword K; tseq H
  end.
Ltac talt H := apply t_alt in H as (?e & ?I & H); repeat (destruct I as [<-|I]); [..|destruct I].

(** * Words *)
Definition sx (w : tokens) (s : sexp) : Prop := map snd w = ww s /\ good s.
Definition sxl (w : tokens) (l : list sexp) : Prop := map snd w = wl l /\ Forall good l.
Lemma sxl_nil : sxl [] [].
Proof. split; [reflexivity|constructor]. Qed.
Lemma sxl_one w s : sx w s -> sxl w [s].
Proof. intros [E G]. split; [now rewrite wl_cons, wl_nil, app_nil_r|auto]. Qed.
Lemma sxl_app a b la lb : sxl a la -> sxl b lb -> sxl (a ++ b) (la ++ lb).
Proof. intros [E1 G1] [E2 G2]. split; [rewrite map_app, wl_app; congruence|now apply Forall_app]. Qed.
Lemma sxl_cons a b s lb : sx a s -> sxl b lb -> sxl (a ++ b) (s :: lb).
Proof. intros [E1 G1] [E2 G2]. split; [rewrite map_app, wl_cons; congruence|auto]. Qed.
Lemma sx_list w l : sxl w l -> sx (("LPAR", "(") :: w ++ [("RPAR", ")")]) (SList l).
Proof. intros [E G]. split; [|now constructor]. rewrite ww_list. cbn [map snd]. rewrite map_app. cbn [map snd]. now rewrite E. Qed.
Lemma sx_atom t w k : spell k = w -> good (SAtom k) -> sx [(t, w)] (SAtom k).
Proof. intros <- G. split; [reflexivity|exact G]. Qed.

(** * What trees are worth *)
Section Worth.
  Context {St : Type}.
  Variable callback : string -> list value -> St -> St * res value.
  Notation V := (visit VTok VNone (call callback)).
  Fixpoint visits (cs : list ptree) (st : St) {struct cs} : St * res (list value) :=
    match cs with
    | [] => (st, Ok [])
    | c :: cs' =>
        match V c st with
        | (st1, Err e) => (st1, Err e)
        | (st1, Ok v) => match visits cs' st1 with
                         | (st2, Ok vs) => (st2, Ok (v :: vs))
                         | (st2, Err e) => (st2, Err e)
                         end
        end
    end.
  Lemma visit_node n cs st : V (PNode n cs) st =
    match visits cs st with (st1, Ok vs) => call callback n vs st1 | (st1, Err e) => (st1, Err e) end.
  Proof.
    cbn [visit]. match goal with |- match ?x with _ => _ end = match ?y with _ => _ end => assert (E : x = y) end; [|now rewrite E].
    revert st. induction cs as [|c cs IH]; intros st; [reflexivity|]. cbn [visits]. destruct (V c st) as [st1 [v|e]]; [|reflexivity]. now rewrite IH.
  Qed.
  Lemma visits_app a b st : visits (a ++ b) st =
    match visits a st with
    | (st1, Ok va) => match visits b st1 with (st2, Ok vb) => (st2, Ok (va ++ vb)) | (st2, Err e) => (st2, Err e) end
    | (st1, Err e) => (st1, Err e)
    end.
  Proof.
    revert st. induction a as [|c a IH]; intros st; cbn [visits app].
    - destruct (visits b st) as [st2 [vb|e]]; reflexivity.
    - destruct (V c st) as [st1 [v|e]]; [|reflexivity]. rewrite IH. destruct (visits a st1) as [st2 [va|e]]; [|reflexivity]. destruct (visits b st2) as [st3 [vb|e]]; reflexivity.
  Qed.
  (** without change of attributes *)
  Definition join (a b : res (list value)) : res (list value) := let* x := a in let* y := b in Ok (x ++ y).
  Lemma visits_join a b st ra rb : visits a st = (st, ra) -> visits b st = (st, rb) -> visits (a ++ b) st = (st, join ra rb).
  Proof. intros A B. rewrite visits_app, A. destruct ra as [va|e]; [|reflexivity]. rewrite B. destruct rb; reflexivity. Qed.
  Lemma visits_one p st r : V p st = (st, r) -> visits [p] st = (st, let* v := r in Ok [v]).
  Proof. intros E. cbn [visits]. rewrite E. destruct r; reflexivity. Qed.
  Lemma visits_cons p ps st r rs : V p st = (st, r) -> visits ps st = (st, rs) -> visits (p :: ps) st = (st, let* v := r in let* vs := rs in Ok (v :: vs)).
  Proof. intros E F. cbn [visits]. rewrite E. destruct r; [|reflexivity]. rewrite F. destruct rs; reflexivity. Qed.
  Lemma visits_leaf w ps st rs : visits ps st = (st, rs) -> visits (PLeaf w :: ps) st = (st, let* vs := rs in Ok (VTok w :: vs)).
  Proof. intros F. now apply (visits_cons (PLeaf w) ps st (Ok (VTok w))). Qed.
  Lemma visits_nil st : visits [] st = (st, Ok []).
  Proof. reflexivity. Qed.
  Lemma visit_pure n cs st rs r : visits cs st = (st, rs) -> (forall vs, rs = Ok vs -> call callback n vs st = (st, r vs)) -> V (PNode n cs) st = (st, let* vs := rs in r vs).
  Proof. intros E H. rewrite visit_node, E. destruct rs as [vs|e]; [|reflexivity]. cbn [bind]. now apply H. Qed.
  (** a list of nodes *)
  Lemma visits_map {A} (f : sexp -> res A) (g : A -> value) ps l st :
    Forall2 (fun p s => V p st = (st, let* a := f s in Ok (g a))) ps l ->
    visits ps st = (st, let* xs := mapR f l in Ok (map g xs)).
  Proof.
    induction 1 as [|p s ps l E _ IH]; [reflexivity|]. rewrite (visits_cons _ _ _ _ _ E IH). cbn [mapR]. destruct (f s) as [a|e]; [|reflexivity]. cbn [bind]. destruct (mapR f l); reflexivity.
  Qed.
End Worth.
Lemma many_trees n (Q : ptree -> sexp -> Prop) cs w nx : many (N n) cs w nx ->
  Forall (fun p => forall w nx, TT (N n) [p] w nx -> exists s, sx w s /\ Q p s) cs ->
  exists l, sxl w l /\ Forall2 Q cs l.
Proof.
  induction 1 as [nx|c1 c2 u v nx H _ IH]; intros F; [exists []; split; [apply sxl_nil|constructor]|].
  destruct (t_N _ _ _ _ H) as (e & no & cs' & -> & _). inversion F as [|? ? F1 F2]; subst. destruct (F1 _ _ H) as (s & S1 & Q1). destruct (IH F2) as (l & S2 & Q2).
  exists (s :: l). split; [now apply sxl_cons|now constructor].
Qed.
Lemma many_trees' n (Q : ptree -> sexp -> Prop) cs w nx : many (N n) cs w nx ->
  (forall p w nx, TT (N n) [p] w nx -> exists s, sx w s /\ Q p s) ->
  exists l, sxl w l /\ Forall2 Q cs l.
Proof. intros H F. apply (many_trees n Q _ _ _ H). apply Forall_forall. intros p _. apply F. Qed.

(** * Typed lists *)
Section TypedLists.
  Context {St : Type}.
  Variable callback : string -> list value -> St -> St * res value.
  Notation V := (visit VTok VNone (call callback)).
  Definition piece (cs : list ptree) (w : tokens) (l : list sexp) (rv : res (list value)) : Prop :=
    sxl w l /\ forall st, visits callback cs st = (st, rv).
  Lemma piece_app a b u v l m ra rb : piece a u l ra -> piece b v m rb -> piece (a ++ b) (u ++ v) (l ++ m) (join ra rb).
  Proof. intros [S1 V1] [S2 V2]. split; [now apply sxl_app|]. intros st. now apply visits_join. Qed.
  Lemma piece_nil : piece [] [] [] (Ok []).
  Proof. split; [apply sxl_nil|reflexivity]. Qed.
  Lemma join_assoc a b c : join (join a b) c = join a (join b c).
  Proof. destruct a as [x|e]; [|reflexivity]. destruct b as [y|e]; [|reflexivity]. destruct c as [z|e]; [|reflexivity]. cbn. now rewrite app_assoc. Qed.
  Lemma join_nil a : join a (Ok []) = a.
  Proof. destruct a as [x|e]; [cbn; now rewrite app_nil_r|reflexivity]. Qed.

  Variables (IT TD : sym) (OK : bool -> tokens -> list sexp -> res (list value) -> Prop).
  Hypotheses (Hn : forall seen, OK seen [] [] (Ok []))
    (Hv : forall cs w nx, TT IT cs w nx -> exists l rv, piece cs w l rv /\ forall seen w' r rv', OK true w' r rv' -> OK seen (w ++ w') (l ++ r) (join rv rv'))
    (Ht : forall cs w w' nx, TT TD cs w (next w' nx) -> exists l rv, piece cs w l rv /\
            forall r rv', OK false w' r rv' -> OK true (("TYPE_SEP", "-") :: w ++ w') (SAtom (TOp "-") :: l ++ r) (join (Ok [VTok "-"]) (join rv rv'))).
  Lemma tl_items cs w nx : many IT cs w nx -> exists l rv, piece cs w l rv /\ forall seen w' r rv', (forall b, OK b w' r rv') -> OK seen (w ++ w') (l ++ r) (join rv rv').
  Proof.
    induction 1 as [nx|c1 c2 u v nx H _ (l & rv & P1 & O1)].
    - exists [], (Ok []). split; [apply piece_nil|]. intros seen w' r rv' X. destruct rv'; apply X.
    - destruct (Hv _ _ _ H) as (l' & rv1 & P2 & O2). exists (l' ++ l), (join rv1 rv). split; [now apply piece_app|].
      intros seen w' r rv' X. rewrite <- !app_assoc, join_assoc. auto.
  Qed.
  Lemma tl_items1 cs w nx : many IT cs w nx -> exists l rv, piece cs w l rv /\ forall w' r rv', OK true w' r rv' -> OK true (w ++ w') (l ++ r) (join rv rv').
  Proof.
    induction 1 as [nx|c1 c2 u v nx H _ (l & rv & P1 & O1)].
    - exists [], (Ok []). split; [apply piece_nil|]. intros w' r rv' X. destruct rv'; apply X.
    - destruct (Hv _ _ _ H) as (l' & rv1 & P2 & O2). exists (l' ++ l), (join rv1 rv). split; [now apply piece_app|].
      intros w' r rv' X. rewrite <- !app_assoc, join_assoc. auto.
  Qed.
  Lemma sep_piece : piece [PLeaf "-"] [("TYPE_SEP", "-")] [SAtom (TOp "-")] (Ok [VTok "-"]).
  Proof. split; [|reflexivity]. apply sxl_one, sx_atom; [reflexivity|]. apply op_good. cbn. tauto. Qed.
  Lemma tl_group cs w w' nx : TT (Seq [Plus IT; T "TYPE_SEP"; TD]) cs w (next w' nx) -> exists l rv, piece cs w l rv /\
     forall seen r rv', OK false w' r rv' -> OK seen (w ++ w') (l ++ r) (join rv rv').
  Proof.
    intros H. tseq H. subst. rewrite !app_nil_r in *. cbn [next app] in *.
    apply t_plus in K as (a1 & a2 & b1 & b2 & -> & -> & H1 & H2). destruct (Hv _ _ _ H1) as (l1 & r1 & P1 & O1). destruct (tl_items1 _ _ _ H2) as (l2 & r2 & P2 & O2).
    destruct (Ht _ _ _ _ K0) as (l3 & r3 & P3 & O3).
    exists (l1 ++ l2 ++ [SAtom (TOp "-")] ++ l3), (join r1 (join r2 (join (Ok [VTok "-"]) r3))). split.
    - rewrite <- !app_assoc. apply piece_app; [exact P1|]. apply piece_app; [exact P2|]. apply (piece_app [PLeaf "-"] _ [("TYPE_SEP", "-")] _); [apply sep_piece|exact P3].
    - intros seen r rv' X. rewrite <- !app_assoc. rewrite !join_assoc. apply O1. apply O2. cbn [app]. now apply O3.
  Qed.
  Lemma tl_groups cs w nx w' : many (Seq [Plus IT; T "TYPE_SEP"; TD]) cs w (next w' nx) -> exists l rv, piece cs w l rv /\
     forall seen r rv', (forall b, OK b w' r rv') -> OK seen (w ++ w') (l ++ r) (join rv rv').
  Proof.
    remember (next w' nx) as n. intros H. revert Heqn. induction H as [nx'|c1 c2 u v nx' H _ IH]; intros E; subst.
    - exists [], (Ok []). split; [apply piece_nil|]. intros seen r rv' X. destruct rv'; apply X.
    - destruct (IH eq_refl) as (l & rv & P1 & O1). rewrite <- next_app in H. destruct (tl_group _ _ _ _ H) as (l' & rv1 & P2 & O2).
      exists (l' ++ l), (join rv1 rv). split; [now apply piece_app|]. intros seen r rv' X. rewrite <- !app_assoc, join_assoc. auto.
  Qed.
  Lemma tl_all cs w nx : TT (Seq [Plus (Seq [Plus IT; T "TYPE_SEP"; TD]); Star IT]) cs w nx -> exists l rv, piece cs w l rv /\ OK false w l rv.
  Proof.
    intros H. tseq H. subst. rewrite !app_nil_r in *. apply t_star in K0. destruct (tl_items _ _ _ K0) as (l2 & r2 & P2 & O2).
    apply t_plus in K as (a1 & a2 & b1 & b2 & -> & -> & H1 & H2).
    assert (X : many (Seq [Plus IT; T "TYPE_SEP"; TD]) (a1 ++ a2) (b1 ++ b2) (next u0 nx)) by now apply many_cons.
    destruct (tl_groups _ _ _ _ X) as (l1 & r1 & P1 & O1).
    exists (l1 ++ l2), (join r1 r2). split; [now apply piece_app|]. apply O1. intros b. rewrite <- (app_nil_r u0), <- (app_nil_r l2), <- (join_nil r2). apply O2. auto.
  Qed.
  Lemma tl_any cs w nx : many IT cs w nx -> exists l rv, piece cs w l rv /\ OK false w l rv.
  Proof.
    intros H. destruct (tl_items _ _ _ H) as (l & r & P1 & O1). exists l, r. split; [exact P1|]. rewrite <- (app_nil_r w), <- (app_nil_r l), <- (join_nil r). apply O1. auto.
  Qed.
End TypedLists.
