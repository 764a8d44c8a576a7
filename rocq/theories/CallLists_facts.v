(** What the trees of typed lists are worth. *)
From Coq Require Import String Ascii List Bool NArith Arith Lia.
From Verif Require Import Py Names Reqs Logic Validation Core Lexer TypedList UpdateTags Parser Py_facts Names_facts Lex_facts
     GD_facts Spec_Grammar Words_facts Grammar_facts GrammarText_facts GrammarAll_facts Lark Spec_Lark LarkMain_facts Callbacks CallTree_facts CallForm_facts.
Import ListNotations.
Open Scope string_scope.
Open Scope list_scope.

Lemma name_not_minus x : matches Name x -> String.eqb x "-" = false.
Proof. intros M. apply name_not_op; [exact M|cbn; tauto]. Qed.
Lemma object_name : matches Name "object".
Proof.
  exists "o"%char, "bject". split; [reflexivity|]. split; [left; split; cbn; lia|].
  repeat (constructor; [left; left; split; cbn; lia|]). constructor.
Qed.
Lemma prim_tree cs w nx : TT (N "primitive_type") cs w nx -> exists x t, cs = [PNode "primitive_type" [PLeaf x]] /\ w = [(t, x)] /\ matches Name x /\ (fst nx = "NAME" -> snd nx <> "object").
Proof.
  intros H. trule H. subst.
  assert (A : fst nx = "NAME" -> snd nx <> "object").
  { intros E1 E2. destruct (Al "NAME" "NAME@type" (or_introl eq_refl) E1) as [_ NT]. rewrite E2 in NT. apply NT. now left. }
  talt H; tword H; subst; [exists x, "NAME"|exists "object", "OBJECT"]; repeat split; auto using object_name.
Qed.
Definition prim (x : string) : ptree := PNode "primitive_type" [PLeaf x].
Definition ws (xs : list string) : list sexp := map (fun x => SAtom (TWord x)) xs.
Lemma ws_good xs : Forall (matches Name) xs -> Forall good (ws xs).
Proof. induction 1; constructor; [now apply name_good|assumption]. Qed.
Lemma ws_words xs : wl (ws xs) = xs.
Proof. induction xs as [|x xs IH]; [reflexivity|]. unfold ws. cbn [map]. rewrite wl_cons. fold (ws xs). now rewrite IH. Qed.
Lemma ws_word xs : mapO Parser.word (ws xs) = Some xs.
Proof. induction xs as [|x xs IH]; [reflexivity|]. cbn. unfold ws in IH. now rewrite IH. Qed.
Lemma prims_tree cs w nx : many (N "primitive_type") cs w nx -> exists xs, cs = map prim xs /\ sxl w (ws xs).
Proof.
  induction 1 as [nx|c1 c2 u v nx H _ (xs & -> & S1)]; [exists []; split; [reflexivity|apply sxl_nil]|].
  apply prim_tree in H as (x & t & -> & -> & M & _). exists (x :: xs). split; [reflexivity|]. apply (sxl_cons [(t, x)]); [|exact S1]. apply sx_atom; [reflexivity|now apply name_good].
Qed.
Lemma names_tree cs w nx : many (T "NAME") cs w nx -> exists xs, cs = map PLeaf xs /\ sxl w (ws xs).
Proof.
  induction 1 as [nx|c1 c2 u v nx H _ (xs & -> & S1)]; [exists []; split; [reflexivity|apply sxl_nil]|].
  tword H. subst. exists (x :: xs). split; [reflexivity|]. apply (sxl_cons [("NAME", x)]); [|exact S1]. apply sx_atom; [reflexivity|now apply name_good].
Qed.
Lemma type_tree cs w nx : TT (N "type_def") cs w nx ->
  exists s, sx w s /\ ((exists x, s = SAtom (TWord x) /\ cs = [PNode "type_def" [prim x]]) \/
                       (exists x xs, s = SList (SAtom (TWord "either") :: ws (x :: xs)) /\ cs = [PNode "type_def" (PLeaf "(" :: PLeaf "either" :: map prim (x :: xs) ++ [PLeaf ")"])])).
Proof.
  intros H. trule H. subst. talt H.
  - tseq H. subst. apply t_plus in K as (a1 & a2 & b1 & b2 & -> & -> & H1 & H2). apply prim_tree in H1 as (x & t & -> & -> & M & _). apply prims_tree in H2 as (xs & -> & S1).
    exists (SList (SAtom (TWord "either") :: ws (x :: xs))). split; [|right; exists x, xs; split; [reflexivity|]; now rewrite app_nil_r].
    assert (S2 : sxl ([(t, x)] ++ b2) (ws (x :: xs))) by (apply sxl_cons; [apply sx_atom; [reflexivity|now apply name_good]|exact S1]). sxs.
  - apply prim_tree in H as (x & t & -> & -> & M & _). exists (SAtom (TWord x)). split; [apply sx_atom; [reflexivity|now apply name_good]|]. left. eauto.
Qed.
Lemma type_def_value s : (exists x, s = SAtom (TWord x)) \/ (exists x xs, s = SList (SAtom (TWord "either") :: ws (x :: xs))) ->
  type_def s = Some (match s with SAtom (TWord x) => [x] | SList (_ :: l) => match mapO Parser.word l with Some xs => xs | None => [] end | _ => [] end).
Proof. intros [(x & ->)|(x & xs & ->)]; [reflexivity|]. cbn [type_def String.eqb Ascii.eqb Bool.eqb]. rewrite ws_word. reflexivity. Qed.
Lemma var_tree cs w nx : TT (N "variable") cs w nx -> exists x, cs = [PNode "variable" [PLeaf x]] /\ w = [("?", "?"); ("NAME", x)] /\ matches Name x.
Proof. intros H. trule H. subst. tseq H. subst. exists x. auto. Qed.

Section Lists.
  Context {St : Type}.
  Variable callback : string -> list value -> St -> St * res value.
  Notation V := (visit VTok VNone (call callback)).
  Notation VS := (visits callback).
  Lemma prim_visit x st : V (prim x) st = (st, Ok (VTok x)).
  Proof. now apply V_inl. Qed.
  Lemma prims_visits xs st : VS (map prim xs) st = (st, Ok (map VTok xs)).
  Proof. induction xs as [|x xs IH]; [reflexivity|]. cbn [map visits]. now rewrite prim_visit, IH. Qed.
  Lemma leaves_visits xs st : VS (map PLeaf xs) st = (st, Ok (map VTok xs)).
  Proof. induction xs as [|x xs IH]; [reflexivity|]. cbn [map visits]. now rewrite V_leaf, IH. Qed.

  (** * Names *)
  Hypothesis H_names : forall args st, callback "typed_list_name" args st = (st, cb_typed_list_name args).
  Definition OKn (seen : bool) (w : tokens) (l : list sexp) (rv : res (list value)) : Prop :=
    exists vs, rv = Ok vs /\ tl_names seen l = Some (str_items vs) /\ (object_next l = true -> exists r, w = ("NAME", "object") :: r).
  Lemma names_list p w nx : TT (N "typed_list_name") [p] w nx -> exists l, sxl w l /\ forall st, V p st = (st, let* d := typed_list_name l in Ok (VNames d)).
  Proof.
    intros H. trule H. inversion Ec; subst.
    assert (X : exists l rv, piece callback cs w l rv /\ OKn false w l rv).
    { assert (Hn : forall seen, OKn seen [] [] (Ok [])) by (intros seen; exists []; repeat split; discriminate).
      assert (Hv : forall cs w nx, TT (T "NAME") cs w nx -> exists l rv, piece callback cs w l rv /\ forall seen w' r rv', OKn true w' r rv' -> OKn seen (w ++ w') (l ++ r) (join rv rv')).
      { clear. intros cs w nx H. tword H. subst. exists [SAtom (TWord x)], (Ok [VTok x]). split.
        - split; [apply sxl_one, sx_atom; [reflexivity|now apply name_good]|reflexivity].
        - intros seen w' r rv' (vs & -> & E & O). exists (VTok x :: vs). split; [reflexivity|]. split.
          + cbn [app tl_names str_items]. now rewrite E, (name_not_minus x M).
          + cbn [app object_next]. intros Eo. apply String.eqb_eq in Eo as ->. eauto. }
      assert (Ht : forall cs w w' nx, TT (N "primitive_type") cs w (next w' nx) -> exists l rv, piece callback cs w l rv /\
                forall r rv', OKn false w' r rv' -> OKn true (("TYPE_SEP", "-") :: w ++ w') (SAtom (TOp "-") :: l ++ r) (join (Ok [VTok "-"]) (join rv rv'))).
      { clear. intros cs w w' nx H. apply prim_tree in H as (x & t & -> & -> & M & A). exists [SAtom (TWord x)], (Ok [VTok x]). split.
        - split; [apply sxl_one, sx_atom; [reflexivity|now apply name_good]|]. intros st. cbn [visits]. fold (prim x). now rewrite prim_visit.
        - intros r rv' (vs & -> & E & O). exists (VTok "-" :: VTok x :: vs). split; [reflexivity|]. split; [|discriminate].
          cbn [app tl_names str_items String.eqb Ascii.eqb Bool.eqb andb]. destruct (object_next r) eqn:Eo.
          + exfalso. destruct (O eq_refl) as (r' & ->). now apply A.
          + cbn [negb]. now rewrite E. }
      talt H; [apply t_star in H; eapply (tl_any callback _ OKn); eauto|eapply (tl_all callback _ _ OKn); eauto]. }
    destruct X as (l & rv & [S1 V1] & vs & -> & E & _). exists l. split; [exact S1|]. intros st. rewrite visit_node, V1, call_plain, H_names by reflexivity. f_equal.
    unfold cb_typed_list_name, typed_list_name. now rewrite E.
  Qed.

  (** * Variables, when types are read *)
  Section Variables.
    Hypothesis H_type : forall args st, callback "type_def" args st = (st, cb_type_def args).
    Hypothesis H_tlv : forall args st, callback "typed_list_variable" args st = (st, cb_typed_list_variable args).
    Definition OKv (seen : bool) (w : tokens) (l : list sexp) (rv : res (list value)) : Prop :=
      exists vs, rv = Ok vs /\ tl_vars seen l = Some (str_items vs).
    Lemma types_back xs : flat_map (fun g => match g with VTok w' => [w'] | _ => [] end) (map VTok xs) = xs.
    Proof. induction xs as [|x xs IH]; [reflexivity|]. cbn. now rewrite IH. Qed.
    Lemma type_piece cs w nx : TT (N "type_def") cs w nx -> exists s xs, sx w s /\ type_def s = Some xs /\ forall st, VS cs st = (st, Ok [VList (map VTok xs)]).
    Proof.
      intros H. apply type_tree in H as (s & S1 & [(x & -> & ->)|(x & xs & -> & ->)]).
      - exists (SAtom (TWord x)), [x]. split; [exact S1|]. split; [reflexivity|]. intros st. cbn [visits]. rewrite visit_node. cbn [visits]. rewrite prim_visit, call_plain, H_type by reflexivity. reflexivity.
      - exists (SList (SAtom (TWord "either") :: ws (x :: xs))), (x :: xs). split; [exact S1|]. split; [rewrite type_def_value by (right; eauto); now rewrite ws_word|].
        intros st. cbn [visits]. rewrite visit_node.
        rewrite (group_visits callback "(" (PLeaf "either") _ ")" st _ _ eq_refl (prims_visits (x :: xs) st)). cbn [bind]. rewrite call_plain, H_type by reflexivity.
        unfold cb_type_def. cbn [length Nat.eqb negb check bind arg nth_error tok_is String.eqb Ascii.eqb Bool.eqb]. now rewrite inner_list.
    Qed.
    Lemma vars_list p w nx : TT (N "typed_list_variable") [p] w nx -> exists l, sxl w l /\ (exists ts, tl_vars false l = Some ts) /\ forall st, V p st = (st, let* tl := typed_list_variable l in Ok (VVars tl)).
    Proof.
      intros H. trule H. inversion Ec; subst.
      assert (X : exists l rv, piece callback cs w l rv /\ OKv false w l rv).
      { assert (Hn : forall seen, OKv seen [] [] (Ok [])) by (intros seen; exists []; repeat split; discriminate).
        assert (Hv : forall cs w nx, TT (N "variable") cs w nx -> exists l rv, piece callback cs w l rv /\ forall seen w' r rv', OKv true w' r rv' -> OKv seen (w ++ w') (l ++ r) (join rv rv')).
        { clear. intros cs w nx H. apply var_tree in H as (x & -> & -> & M). exists [SAtom QMARK; SAtom (TWord x)], (Ok [VTok x]). split.
          - split; [sxs|]. intros st. cbn [visits]. now rewrite (V_inl callback "variable" (PLeaf x) st _ eq_refl eq_refl).
          - intros seen w' r rv' (vs & -> & E). exists (VTok x :: vs). split; [reflexivity|]. cbn [app tl_vars str_items]. now rewrite E, (name_not_minus x M). }
        assert (Ht : forall cs w w' nx, TT (N "type_def") cs w (next w' nx) -> exists l rv, piece callback cs w l rv /\
                  forall r rv', OKv false w' r rv' -> OKv true (("TYPE_SEP", "-") :: w ++ w') (SAtom (TOp "-") :: l ++ r) (join (Ok [VTok "-"]) (join rv rv'))).
        { clear - H_type. intros cs w w' nx H. apply type_piece in H as (s & xs & S1 & E1 & V1). exists [s], (Ok [VList (map VTok xs)]). split.
          - split; [now apply sxl_one|exact V1].
          - intros r rv' (vs & -> & E). exists (VTok "-" :: VList (map VTok xs) :: vs). split; [reflexivity|].
            cbn [app tl_vars str_items String.eqb Ascii.eqb Bool.eqb andb]. now rewrite E1, E, types_back. }
        talt H; [apply t_star in H; eapply (tl_any callback _ OKv); eauto|eapply (tl_all callback _ _ OKv); eauto]. }
      destruct X as (l & rv & [S1 V1] & vs & -> & E). exists l. split; [exact S1|]. split; [eauto|]. intros st. rewrite visit_node, V1, call_plain, H_tlv by reflexivity. f_equal.
      unfold cb_typed_list_variable, typed_list_variable. now rewrite E.
    Qed.
  End Variables.
  (** * Variables, when they are not read *)
  Section Unread.
    Hypothesis H_type : forall args st, callback "type_def" args st = (st, Ok (VTree "type_def" args)).
    Hypothesis H_tlv : forall args st, callback "typed_list_variable" args st = (st, Ok (VTree "typed_list_variable" args)).
    Definition OKu (seen : bool) (w : tokens) (l : list sexp) (rv : res (list value)) : Prop :=
      (exists vs, rv = Ok vs) /\ exists ts, tl_vars seen l = Some ts.
    Lemma unread_list p w nx : TT (N "typed_list_variable") [p] w nx -> exists l, sxl w l /\ (exists ts, tl_vars false l = Some ts) /\ forall st, exists v, V p st = (st, Ok v).
    Proof.
      intros H. trule H. inversion Ec; subst.
      assert (X : exists l rv, piece callback cs w l rv /\ OKu false w l rv).
      { assert (Hn : forall seen, OKu seen [] [] (Ok [])) by (intros seen; split; [exists []; reflexivity|exists []; reflexivity]).
        assert (Hv : forall cs w nx, TT (N "variable") cs w nx -> exists l rv, piece callback cs w l rv /\ forall seen w' r rv', OKu true w' r rv' -> OKu seen (w ++ w') (l ++ r) (join rv rv')).
        { clear. intros cs w nx H. apply var_tree in H as (x & -> & -> & M). exists [SAtom QMARK; SAtom (TWord x)], (Ok [VTok x]). split.
          - split; [sxs|]. intros st. cbn [visits]. now rewrite (V_inl callback "variable" (PLeaf x) st _ eq_refl eq_refl).
          - intros seen w' r rv' ((vs & ->) & ts & E). split; [eexists; reflexivity|]. cbn [app tl_vars]. rewrite E. eauto. }
        assert (Ht : forall cs w w' nx, TT (N "type_def") cs w (next w' nx) -> exists l rv, piece callback cs w l rv /\
                  forall r rv', OKu false w' r rv' -> OKu true (("TYPE_SEP", "-") :: w ++ w') (SAtom (TOp "-") :: l ++ r) (join (Ok [VTok "-"]) (join rv rv'))).
        { clear - H_type. intros cs w w' nx H. apply type_tree in H as (s & S1 & Sh). exists [s].
          assert (Y : exists v, forall st, VS cs st = (st, Ok [v])).
          { destruct Sh as [(x & -> & ->)|(x & xs & -> & ->)]; eexists; intros st; cbn [visits]; rewrite visit_node.
            - cbn [visits]. rewrite prim_visit, call_plain, H_type by reflexivity. reflexivity.
            - rewrite (group_visits callback "(" (PLeaf "either") _ ")" st _ _ eq_refl (prims_visits (x :: xs) st)). cbn [bind]. rewrite call_plain, H_type by reflexivity. reflexivity. }
          assert (Z : exists xs, type_def s = Some xs) by (rewrite type_def_value; [eauto|]; destruct Sh as [(x & -> & _)|(x & xs & -> & _)]; eauto).
          destruct Y as (v & Y). destruct Z as (xs & Z). exists (Ok [v]). split.
          - split; [now apply sxl_one|exact Y].
          - intros r rv' ((vs & ->) & ts & E). split; [eexists; reflexivity|]. cbn [app tl_vars String.eqb Ascii.eqb Bool.eqb andb]. rewrite Z, E. eauto. }
        talt H; [apply t_star in H; eapply (tl_any callback _ OKu); eauto|eapply (tl_all callback _ _ OKu); eauto]. }
      destruct X as (l & rv & [S1 V1] & (vs & ->) & E). exists l. split; [exact S1|]. split; [exact E|]. intros st. eexists. rewrite visit_node, V1, call_plain, H_tlv by reflexivity. reflexivity.
    Qed.
  End Unread.
End Lists.
