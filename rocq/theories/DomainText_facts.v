(** Printed domains: the trees they stand for and what these parse to. *)
From Coq Require Import String List Bool Arith ZArith Lia Permutation Relations.
From Verif Require Import Py Names Reqs Logic Built Validation Core Lexer Show TypedList Parser UpdateTags.
From Verif Require Import Spec Spec_Core Spec_Parse Spec_Print Spec_Text Spec_Features Spec_Domain.
From Verif Require Import Py_facts Names_facts Logic_facts NF_facts Order_facts CoreEq_facts Validation_facts Core_facts
  TypedList_facts Parse_facts Lex_facts Layout_facts Text_facts Print_facts Types_facts Vars_facts NumShow_facts
  FormText_facts Domain_facts Feature_facts ProblemText_facts Scope_facts.
Import ListNotations.
Open Scope string_scope.
Open Scope list_scope.

(** ** contexts that know the same things *)
Record ctx_sub (c c' : gctx) : Prop := mkSub {
  cs_ext : incl (g_ext c) (g_ext c');
  cs_const : forall n t, g_const c n = Ok t -> g_const c' n = Ok t;
  cs_params : forall n, match dict_get String.eqb n (g_params c), dict_get String.eqb n (g_params c') with
                        | Some w, Some w' => same_var w' w
                        | None, None => True
                        | _, _ => False
                        end
}.
Lemma same_var_trans u v w : same_var u v -> same_var v w -> same_var u w.
Proof. intros [A B] [C D]. split; [congruence|]. now apply (same_set_trans _ (v_tags v)). Qed.
Section Sub.
  Variables c c' : gctx.
  Hypothesis S' : ctx_sub c c'.
  Lemma sub_fits t : fits c t -> fits c' t.
  Proof.
    destruct t as [n g|v]; cbn; intros [L H]; split; auto.
    - now apply (cs_const _ _ S').
    - pose proof (cs_params _ _ S' (v_name v)) as P.
      destruct (dict_get _ (v_name v) (g_params c)) as [w|], (dict_get _ (v_name v) (g_params c')) as [w'|]; try contradiction; auto.
      now apply (same_var_trans _ w).
  Qed.
  Lemma sub_fitss ts : Forall (fits c) ts -> Forall (fits c') ts.
  Proof. apply Forall_impl, sub_fits. Qed.
  Lemma sub_allowed rs : allowed c rs -> allowed c' rs.
  Proof. intros (r & I & H). exists r. split; auto. now apply (cs_ext _ _ S'). Qed.
  Lemma sub_expression f : expression c f -> expression c' f.
  Proof.
    induction f using form_ind'; intros E; inversion E; subst; constructor; auto using sub_fitss;
      try (rewrite Forall_forall in *; now auto).
    - inversion H as [|? ? A H']; inversion H'; subst; auto.
    - inversion H as [|? ? A H']; inversion H'; subst; auto.
    - inversion H; subst; auto.
  Qed.
  Lemma sub_atom f : atom_form c f -> atom_form c' f.
  Proof.
    intros [n ts L F N|l r Q L R N]; constructor; auto using sub_fitss, sub_fits. now apply (cs_ext _ _ S').
  Qed.
  Lemma sub_condition f : condition c f -> condition c' f.
  Proof.
    induction f using form_ind'; intros C; inversion C; subst;
      try (match goal with H : atom_form c _ |- _ => apply C_atom; now apply sub_atom end).
    - apply C_compare; auto using sub_expression.
    - apply C_and. rewrite Forall_forall in *. auto.
    - apply C_or; [now apply sub_allowed|]. rewrite Forall_forall in *. auto.
    - inversion H as [|? ? A H']; inversion H' as [|? ? B _]; subst. apply C_imply; auto. now apply sub_allowed.
    - apply C_not. auto.
    - apply C_exists; auto. now apply sub_allowed.
    - apply C_forall; auto. now apply sub_allowed.
  Qed.
  Lemma sub_primitive f : primitive c f -> primitive c' f.
  Proof.
    intros [f0 A|f0 A|k n ts e K L F E]; [apply P_atom|apply P_not|apply P_assign];
      auto using sub_atom, sub_fitss, sub_expression.
  Qed.
  Lemma sub_consequence f : consequence c f -> consequence c' f.
  Proof.
    intros [f0 P|ops P]; [apply Q_prim; now apply sub_primitive|apply Q_and].
    eapply Forall_impl; [|exact P]. apply sub_primitive.
  Qed.
  Lemma sub_effect f : forall b, effect_form c b f -> effect_form c' b f.
  Proof.
    induction f using form_ind'; intros b E; inversion E; subst;
      try (match goal with H : primitive c _ |- _ => apply F_prim; now apply sub_primitive end).
    - apply F_and. rewrite Forall_forall in *. auto.
    - apply F_oneof; auto; [now apply (cs_ext _ _ S')|]. rewrite Forall_forall in *. auto.
    - apply F_when; [now apply sub_condition|now apply sub_consequence].
    - apply F_forall; auto.
  Qed.
End Sub.

(** ** similar formulas are typed alike *)
Lemma term_typed_same d rs t u : same_term u t -> term_typed d rs t -> term_typed d rs u.
Proof.
  intros (_ & _ & H) [A B]. split.
  - intros N. apply A. intros E. rewrite E in H. now apply same_set_nil in H.
  - intros g Hg. apply B. now apply H.
Qed.
Lemma Forall2_In_l {A B} (R : A -> B -> Prop) l m x : Forall2 R l m -> In x l -> exists y, In y m /\ R x y.
Proof.
  induction 1 as [|a b l m H F IH]; [contradiction|]. intros [<-|Hx].
  - exists b. split; auto. now left.
  - destruct (IH Hx) as (y & ? & ?). exists y. split; auto. now right.
Qed.
Lemma sim_occurs f : forall g t, sim g f -> occurs t g -> exists u, occurs u f /\ same_term t u.
Proof.
  assert (V : forall ws vs w, set_eqb var_eqb ws vs = true -> In w ws -> exists v, In v vs /\ same_term (TVar w) (TVar v)).
  { intros ws vs w Q Hw. destruct (set_eqb_var_In ws vs w Q Hw) as (v & Hv & E). exists v. split; auto.
    split; [now apply same_var_eqb|exact E]. }
  assert (X : forall ops, Forall (fun f => forall g t, sim g f -> occurs t g -> exists u, occurs u f /\ same_term t u) ops ->
     forall gs g t, Forall2 sim gs ops -> In g gs -> occurs t g -> exists f u, In f ops /\ occurs u f /\ same_term t u).
  { intros ops H gs g t F Hg O. destruct (Forall2_In_l _ _ _ _ F Hg) as (f0 & Hf & Sf).
    rewrite Forall_forall in H. destruct (H f0 Hf g t Sf O) as (u & U1 & U2). eauto. }
  induction f using form_ind'; intros g t E O; inversion E; subst; inversion O; subst.
  - match goal with F : Forall2 same_term _ _, I : In t _ |- _ => destruct (Forall2_In_l _ _ _ t F I) as (u & Hu & U) end. exists u. split; auto. now constructor.
  - exists l. split; [constructor|assumption].
  - exists r. split; [constructor|assumption].
  - match goal with F : Forall2 same_term _ _, I : In t _ |- _ => destruct (Forall2_In_l _ _ _ t F I) as (u & Hu & U) end. exists u. split; auto. now constructor.
  - match goal with F : Forall2 sim _ _, I : In ?x _, O : occurs t ?x |- _ =>
      destruct (X _ H _ _ _ F I O) as (f1 & u & Hf & U1 & U2) end. exists u. split; auto. econstructor; eauto.
  - match goal with F : Forall2 sim _ _, I : In ?x _, O : occurs t ?x |- _ =>
      destruct (X _ H _ _ _ F I O) as (f1 & u & Hf & U1 & U2) end. exists u. split; auto. econstructor; eauto.
  - match goal with S0 : sim _ f |- _ => destruct (IHf _ t S0) as (u & U1 & U2); auto end. exists u. split; auto. now constructor.
  - match goal with S0 : sim _ f |- _ => destruct (IHf _ t S0) as (u & U1 & U2); auto end. exists u. split; auto. now constructor.
  - match goal with S0 : same_block _ _, I : In v _ |- _ => destruct (V _ _ _ (proj1 S0) I) as (u & U1 & U2) end.
    exists (TVar u). split; auto. eapply O_bound; eauto.
  - match goal with S0 : sim _ f1 |- _ => destruct (IHf1 _ t S0) as (u & U1 & U2); auto end. exists u. split; auto. now constructor.
  - match goal with S0 : sim _ f2 |- _ => destruct (IHf2 _ t S0) as (u & U1 & U2); auto end. exists u. split; auto. now apply O_when_e.
  - match goal with S0 : sim _ f |- _ => destruct (IHf _ t S0) as (u & U1 & U2); auto end. exists u. split; auto. now constructor.
  - match goal with S0 : same_block _ _, I : In v _ |- _ => destruct (V _ _ _ (proj1 S0) I) as (u & U1 & U2) end.
    exists (TVar u). split; auto. eapply O_fbound; eauto.
Qed.
Lemma sim_typed d rs g f : sim g f -> form_typed d rs f -> form_typed d rs g.
Proof.
  intros S' T t O. destruct (sim_occurs f g t S' O) as (u & U & E). apply (term_typed_same _ _ u); auto.
Qed.

(** ** the types *)
Definition line_sx (l : type_line) : list sexp := map name_sx (tl_types l) ++ [dash; name_sx (tl_parent l)].
Definition line_items (l : type_line) : list (string * option string) :=
  map (fun t => (t, Some (tl_parent l))) (tl_types l).
Definition norm_item (kv : string * option string) : string * option string :=
  (fst kv, match snd kv with Some p => if String.eqb p "object" then None else Some p | None => None end).
Lemma piece_type_line l : Forall legal_type (tl_types l) -> legal_type (tl_parent l) ->
  piece (line_text l) (line_sx l).
Proof.
  intros F L. unfold line_text, line_sx.
  apply (piece_line _ ("    " +++ join " " (tl_types l) +++ " - " +++ tl_parent l)); [|str].
  apply (rx_pre "    " _ []); [rx_lit|reflexivity|].
  apply rx_app; [|now apply rx_dash, rx_type|cbn; auto].
  rewrite <- (map_id (tl_types l)) at 1. rewrite <- (flat_map_single name_sx). apply rx_join.
  eapply Forall_impl; [|exact F]. apply rx_type.
Qed.
Lemma written_lines lines : Forall (fun l => tl_types l <> []) lines -> (forall l t, In l lines -> In t (tl_types l) -> t <> "object") ->
  written_names (flat_map line_sx lines) (map (fun l => (tl_types l, [tl_parent l])) lines) [].
Proof.
  induction 1 as [|l lines N F IH]; intros NO; [apply (wn_tail [])|].
  cbn [flat_map map]. unfold line_sx at 1. rewrite <- app_assoc. cbn [app]. apply wn_group_legal; [exact N| |apply IH; intros; eapply NO; eauto; now right].
  intros n H. rewrite app_nil_r in H. apply in_flat_map in H as ((ts & gs) & H & K). apply in_map_iff in H as (l' & E & H). inversion E; subst. eapply NO; [right; exact H|exact K].
Qed.
Lemma assigned_lines lines :
  map (fun kv => (fst kv, hd_error (snd kv))) (assigned (map (fun l => (tl_types l, [tl_parent l])) lines) [])
  = flat_map line_items lines.
Proof.
  unfold assigned. rewrite app_nil_r. induction lines as [|l lines IH]; auto.
  cbn [map flat_map fst snd]. rewrite map_app, IH. f_equal. unfold line_items. rewrite map_map. reflexivity.
Qed.
Lemma NoDup_split {A} (l : list A) :
  (forall x, In x l -> exists a b, l = a ++ x :: b /\ ~ In x (a ++ b)) -> NoDup l.
Proof.
  induction l as [|x l IH]; intros H; [constructor|]. constructor.
  - intros Hx. destruct (H x (or_introl eq_refl)) as ([|y a] & b & E & N); cbn in E; inversion E; subst.
    + now apply N.
    + apply N. now left.
  - apply IH. intros y Hy. destruct (H y (or_intror Hy)) as ([|z a] & b & E & N); cbn in E; inversion E; subst.
    + now destruct N.
    + exists a, b. split; auto. intros C. apply N. now right.
Qed.
Lemma root_exists (d : types_dict) : NoDup (map fst d) -> no_type_cycle d -> d <> [] ->
  (forall t p, In (t, Some p) d -> In p (map fst d)) -> exists t, In (t, None) d.
Proof.
  intros N AC NE CL.
  destruct (existsb (fun kv => match snd kv with None => true | Some _ => false end) d) eqn:E.
  - apply existsb_exists in E as ([t [p|]] & Hi & Ht); [discriminate|eauto].
  - exfalso. destruct (successors_cycle (fun t p => parent_of d p t) (length (map fst d)) (map fst d)) as (x & Hx).
    + lia.
    + destruct d; [contradiction|discriminate].
    + intros x Hx. apply in_map_iff in Hx as ((t & o) & Et & Hi). cbn in Et. subst t.
      destruct o as [p|].
      * exists p. split; [eapply CL; eauto|]. constructor. exact Hi.
      * exfalso. assert (T : existsb (fun kv : string * option string => match snd kv with None => true | Some _ => false end) d = true).
        { apply existsb_exists. exists (x, None). auto. }
        congruence.
    + apply (AC x). clear - Hx. revert Hx. generalize x at 1 4. generalize x. intros a b H.
      induction H as [a b H|a b e H1 IH1 H2 IH2]; [now constructor|eapply t_trans; eauto].
Qed.
Lemma types_read d : NoDup (map fst d) -> no_type_cycle d -> types_legal d -> d <> [] ->
  (forall t p, In (t, Some p) d -> In p (map fst d)) -> ~ In "object" (map fst d) ->
  exists s body r, print_types_with_parents d = Ok s /\ piece s [section_sx ":types" body]
    /\ typed_list_name body = Ok r /\ Permutation (map norm_item r) d.
Proof.
  intros N AC [LK LP] NE CL NO.
  destruct (types_lines d N AC NE) as (s & lines & E & T & ONCE & CONV & EMP).
  assert (KEY : forall l t, In l lines -> In t (tl_types l) -> In t (map fst d)).
  { intros l t Hl Ht. destruct (CONV l t Hl Ht) as [(o & Ho)|(c & Hc)]; [|eapply CL; eauto].
    apply in_map_iff. exists (t, o). auto. }
  assert (NOB : forall t, In t (map fst d) -> t <> "object") by (intros t Ht ->; contradiction).
  assert (LEG : forall t, In t (map fst d) -> legal_type t).
  { intros t Ht. apply in_map_iff in Ht as ((t' & o) & Et & Hi). cbn in Et. subst t'. eapply LK; eauto. }
  assert (ND : NoDup (flat_map tl_types lines)).
  { apply NoDup_split. intros t Ht. apply in_flat_map in Ht as (l & Hl & Ht).
    pose proof (KEY l t Hl Ht) as K. pose proof K as K'. apply in_map_iff in K' as ((t' & o) & Et & Hi). cbn in Et. subst t'.
    destruct (ONCE t o Hi (NOB t K)) as (b & xs & ys & a & -> & N1 & N2 & _).
    exists (flat_map tl_types b ++ xs), (ys ++ flat_map tl_types a). split.
    - rewrite flat_map_app. cbn [flat_map tl_types]. rewrite <- !app_assoc. reflexivity.
    - intros C. rewrite !in_app_iff in C. rewrite in_app_iff in N1.
      assert (Z : forall ls, incl ls (b ++ a) -> ~ In t (flat_map tl_types ls)).
      { intros ls I Hz. apply in_flat_map in Hz as (l' & Hl' & Ht'). apply (N2 l'); auto. }
      destruct C as [[C|C]|[C|C]]; try tauto.
      + apply (Z b); auto. intros z Hz. apply in_app_iff. auto.
      + apply (Z a); auto. intros z Hz. apply in_app_iff. auto. }
  assert (IT : forall t o, In (t, o) d -> In (t, Some (listed_parent o)) (flat_map line_items lines)).
  { intros t o Hi. assert (K : In t (map fst d)) by (apply in_map_iff; exists (t, o); auto).
    destruct (ONCE t o Hi (NOB t K)) as (b & xs & ys & a & -> & _). apply in_flat_map.
    exists (mkLine (xs ++ t :: ys) (listed_parent o)). split; [apply in_app_iff; right; now left|].
    unfold line_items. cbn [tl_types tl_parent]. apply in_map_iff. exists t. split; auto. apply in_app_iff. right. now left. }
  assert (FM : map fst (flat_map line_items lines) = flat_map tl_types lines).
  { clear. induction lines as [|l lines IH]; auto. cbn [flat_map]. rewrite map_app, IH. f_equal.
    unfold line_items. rewrite map_map. apply map_id. }
  assert (UNI : forall t a b, In (t, a) (flat_map line_items lines) -> In (t, b) (flat_map line_items lines) -> a = b).
  { intros t a b Ha Hb. apply (unique_parent (flat_map line_items lines) t); auto. now rewrite FM. }
  assert (PAR : forall l t, In l lines -> In t (tl_types l) -> exists o, In (t, o) d /\ tl_parent l = listed_parent o).
  { intros l t Hl Ht. pose proof (KEY l t Hl Ht) as K. apply in_map_iff in K as ((t' & o) & Et & Hi). cbn in Et. subst t'.
    exists o. split; auto. assert (Some (tl_parent l) = Some (listed_parent o)) as X; [|now inversion X].
    apply (UNI t); auto. apply in_flat_map. exists l. split; auto. apply in_map_iff. eauto. }
  assert (NEL : Forall (fun l => tl_types l <> []) lines).
  { apply Forall_forall. intros l Hl El. destruct (root_exists d N AC NE CL) as (t & Ht).
    pose proof (EMP l Hl El t Ht) as ->. apply NO. apply in_map_iff. exists ("object", None). auto. }
  assert (OBJ : legal_type "object").
  { apply parse_type_Ok. reflexivity. }
  assert (LPAR' : forall l, In l lines -> Forall legal_type (tl_types l) /\ legal_type (tl_parent l)).
  { intros l Hl. split.
    - apply Forall_forall. intros t Ht. apply LEG. eapply KEY; eauto.
    - rewrite Forall_forall in NEL. specialize (NEL l Hl). destruct (tl_types l) as [|t ts] eqn:Et; [contradiction|].
      destruct (PAR l t Hl) as (o & Ho & ->); [rewrite Et; now left|]. destruct o as [p|]; cbn; auto.
      apply LEG. eapply CL; eauto. }
  exists s, (flat_map line_sx lines), (flat_map line_items lines). split; [exact E|]. split; [|split].
  - unfold types_text in T. subst s.
    apply (piece_line _ ("(:types" +++ nl +++ String.concat "" (map line_text lines) +++ ")")); [|str].
    apply (rx_group _ (":types" +++ nl +++ String.concat "" (map line_text lines))); [|str].
    change (SAtom (TKw ":types") :: ?l) with ([SAtom (TKw ":types")] ++ l).
    apply rx_app; [rx_lit| |cbn; auto]. apply rx_nl. apply rx_concat. apply Forall_forall. intros l Hl.
    apply piece_type_line; now apply LPAR'.
  - apply (typed_list_name_Ok _ _ _ _ (written_lines lines NEL (fun l t Hl Ht => NOB t (KEY l t Hl Ht)))). rewrite assigned_lines. split; auto. split.
    + intros a gs Ha. unfold assigned in Ha. rewrite app_nil_r in Ha. apply in_flat_map in Ha as ((ts & g) & Hg & Ha).
      apply in_map_iff in Hg as (l & Eg & Hl). inversion Eg; subst. cbn [fst snd] in Ha.
      apply in_map_iff in Ha as (t & Et & Ht). inversion Et; subst. split.
      * destruct (LEG a (KEY l a Hl Ht)) as [L1 L2]. split; auto. intros C. apply (NOB a (KEY l a Hl Ht)). auto.
      * constructor; [|constructor]. now apply LPAR'.
    + replace (map fst (assigned _ _)) with (map fst (flat_map line_items lines)); [now rewrite FM|].
      rewrite <- assigned_lines, map_map. reflexivity.
  - apply NoDup_Permutation.
    + apply (NoDup_map_inv fst). rewrite map_map. change (fun x => fst (norm_item x)) with (@fst string (option string)). now rewrite FM.
    + now apply (NoDup_map_inv fst).
    + intros [t o]. split.
      * intros Hi. apply in_map_iff in Hi as ((t' & q) & Et & Hi). apply in_flat_map in Hi as (l & Hl & Hi).
        apply in_map_iff in Hi as (t2 & E2 & Ht). inversion E2; subst. destruct (PAR l t' Hl Ht) as (o' & Ho & P).
        cbn [norm_item fst snd] in Et. rewrite P in Et. inversion Et; subst. destruct o' as [p|]; cbn [listed_parent]; auto.
        destruct (String.eqb p "object") eqn:Ep; auto. apply String.eqb_eq in Ep. subst p. destruct NO. eapply CL; eauto.
      * intros Hi. apply in_map_iff. exists (t, Some (listed_parent o)). split; [|now apply IT].
        unfold norm_item. cbn [fst snd]. destruct o as [p|]; cbn [listed_parent]; auto.
        destruct (String.eqb p "object") eqn:Ep; auto. apply String.eqb_eq in Ep. subst p. destruct NO. eapply CL; eauto.
Qed.

(** ** declared predicates *)
Definition vars_of (ts : list term) : list var :=
  flat_map (fun t => match t with TVar v => [v] | TConst _ _ => [] end) ts.
Lemma vars_of_map vs : vars_of (map TVar vs) = vs.
Proof. unfold vars_of. induction vs as [|v vs IH]; cbn [map flat_map app]; congruence. Qed.
Definition pred_sx (p : atom) : sexp := SList (name_sx (fst p) :: flat_map item_sx (sorted_items (vars_of (snd p)))).
(** the same atom, its variables' types in any order *)
Definition same_atom (p q : atom) : Prop :=
  fst p = fst q /\ exists ws vs, snd p = map TVar ws /\ snd q = map TVar vs /\ Forall2 same_var ws vs.
Lemma pred_decl_end n vs : exists a, show_pred_decl (n, map TVar vs) = a +++ " ".
Proof.
  unfold show_pred_decl. cbn [fst snd]. destruct (map TVar vs) as [|t ts].
  - exists ("(" +++ n +++ ")"). str.
  - exists ("(" +++ n +++ String.concat "" (map show_pred_arg (t :: ts)) +++ ") "). str.
Qed.
Lemma piece_decl p : predicate_expressible p ->
  rx (show_pred_decl p) [pred_sx p] /\ fst (run QStart (show_pred_decl p)) = QStart.
Proof.
  destruct p as [n ts]. intros (vs & E & N & L & _). cbn [fst snd] in *. subst ts. unfold pred_sx. cbn [fst snd].
  rewrite vars_of_map. pose proof (rx_pred_decl n vs N L) as R. split; auto.
  destruct (pred_decl_end n vs) as (a & E). rewrite E in *. apply run_space_end. destruct R as [R _].
  now apply no_comment_app in R.
Qed.
Lemma rx_predicates ps : Forall predicate_expressible ps ->
  rx (print_predicates ps) (map pred_sx (sort_by atom_ltb ps)).
Proof.
  intros F. unfold print_predicates. apply rx_strip. rewrite <- (flat_map_single pred_sx). apply rx_concat.
  eapply Forall_impl; [|eapply Permutation_Forall; [symmetry; apply sort_perm|exact F]]. intros p. apply piece_decl.
Qed.
Lemma pred_read p : predicate_expressible p ->
  exists p', atomic_formula_skeleton (pred_sx p) = Ok p' /\ same_atom p' p.
Proof.
  destruct p as [n ts]. intros (vs & E & N & L & R & U). cbn [fst snd] in *. subst ts.
  apply (predicate_in_decl n vs N L R) in U as (ws & U & S').
  unfold predicate_in in U. rewrite (rx_read _ _ (rx_pred_decl n vs N L)) in U.
  exists (n, map TVar ws). unfold pred_sx. cbn [fst snd]. rewrite vars_of_map. split; auto. split; auto.
  exists ws, vs. auto.
Qed.

Definition pred_section (ps : list atom) : option (list sexp) :=
  match ps with [] => None | _ => Some (map pred_sx (sort_by atom_ltb ps)) end.
Lemma piece_predicates ps : Forall predicate_expressible ps ->
  piece (match ps with [] => "" | ps => "(:predicates " +++ print_predicates ps +++ ")" +++ nl end)
        (opt_section ":predicates" (pred_section ps)).
Proof.
  intros F. destruct ps as [|p ps]; [apply piece_nil|]. unfold pred_section, opt_section.
  apply (piece_line _ ("(" +++ ":predicates" +++ " " +++ print_predicates (p :: ps) +++ ")")); [|str].
  apply rx_node; [rx_lit|]. now apply rx_predicates.
Qed.

(** ** declared functions *)
Definition fun_sx (f : atom) : list sexp := [SList (name_sx (fst f) :: flat_map item_sx (first_items (vars_of (snd f))))].
Definition function_groups (fs : functions_dict) := group_by (map (fun kv : atom * option string => (snd kv, fst kv)) fs).
Definition fun_section (fs : functions_dict) : option (list sexp) :=
  match fs with [] => None | _ => Some (typed_sx function_skeleton fun_sx (function_groups fs)) end.
Definition fun_shape (f : atom) : Prop :=
  exists vs, snd f = map TVar vs /\ legal_function (fst f) /\ block vs /\ (fst f = "total-cost" -> vs = []).
Lemma rx_fun f : fun_shape f -> rx (function_skeleton f) (fun_sx f).
Proof.
  destruct f as [n ts]. intros (vs & E & N & (L & _) & _). cbn [fst snd] in *. subst ts. unfold fun_sx. cbn [fst snd].
  rewrite vars_of_map. now apply rx_skeleton; [apply N|].
Qed.
Lemma fun_read f : fun_shape f ->
  exists s f', fun_sx f = [SList s] /\ atomic_function_skeleton (SList s) = Ok f' /\ same_atom f' f.
Proof.
  destruct f as [n ts]. intros (vs & E & N & (L & O & U & R) & T). cbn [fst snd] in *. subst ts.
  unfold fun_sx. cbn [fst snd]. rewrite vars_of_map.
  destruct (String.eqb_spec n "total-cost") as [->|NT].
  - rewrite (T eq_refl). eexists _, _. split; [reflexivity|]. split; [reflexivity|]. split; auto.
    exists [], []. cbn. auto.
  - assert (X : exists ws, function_in (function_skeleton (n, map TVar vs)) = Ok (n, map TVar ws) /\ Forall2 same_var ws vs)
      by (apply function_in_skeleton; auto).
    destruct X as (ws & X & S'). unfold function_in in X. rewrite (rx_read _ _ (rx_skeleton n vs (proj1 N) L)) in X.
    eexists _, _. split; [reflexivity|]. split; [exact X|]. split; auto. exists ws, vs. auto.
Qed.
Lemma tl_functions_items l r : Forall fun_shape l -> forall b,
  exists l', Forall2 same_atom l' l /\
    tl_functions b (flat_map fun_sx l ++ r)
    = let* ts := tl_functions (match l with [] => b | _ => true end) r in Ok (map IItem l' ++ ts).
Proof.
  induction 1 as [|f l H F IH]; intros b.
  - exists []. split; [constructor|]. cbn. now destruct (tl_functions b r).
  - destruct (fun_read f H) as (s & f' & E & A & S'). destruct (IH true) as (l' & S2 & E2).
    exists (f' :: l'). split; [now constructor|]. cbn [flat_map]. rewrite E. cbn [app tl_functions]. rewrite A. cbn [bind].
    change (flat_map fun_sx l ++ r) with (flat_map fun_sx l ++ r) in E2. rewrite E2.
    replace (match l with [] => true | _ => true end) with true by now destruct l.
    destruct (tl_functions true r); reflexivity.
Qed.
Lemma tl_functions_groups tail : Forall fun_shape tail -> forall gs : list (option string * list atom),
  Forall (fun kv => fst kv = Some "number" /\ snd kv <> [] /\ Forall fun_shape (snd kv)) gs ->
  exists groups' tail',
    tl_functions false (flat_map (group_sx function_skeleton fun_sx) gs ++ flat_map fun_sx (sorted_by function_skeleton tail))
    = Ok (typed_tokens groups' tail')
    /\ Forall2 (fun a b => snd a = ["number"] /\ Forall2 same_atom (fst a) (sorted_by function_skeleton (snd b))) groups' gs
    /\ Forall2 same_atom tail' (sorted_by function_skeleton tail).
Proof.
  intros FT. induction 1 as [|[k l] gs (K & NE & F) G IH].
  - destruct (tl_functions_items (sorted_by function_skeleton tail) [] (sorted_by_Forall _ _ _ FT) false) as (l' & S' & E).
    exists [], l'. rewrite app_nil_r in E. cbn [flat_map app]. rewrite E. unfold typed_tokens. cbn.
    split; [|split; [constructor|auto]].
    destruct (sorted_by function_skeleton tail); now rewrite app_nil_r.
  - cbn [fst snd] in *. subst k. destruct IH as (groups' & tail' & E & F2 & T).
    destruct (tl_functions_items (sorted_by function_skeleton l)
      ([dash; name_sx "number"] ++ flat_map (group_sx function_skeleton fun_sx) gs
       ++ flat_map fun_sx (sorted_by function_skeleton tail)) (sorted_by_Forall _ _ _ F) false) as (l' & S' & E').
    exists ((l', ["number"]) :: groups'), tail'. split; [|split; auto].
    cbn [flat_map]. unfold group_sx at 1. cbn [fst snd group_key]. rewrite <- !app_assoc. etransitivity; [exact E'|].
    destruct (sorted_by function_skeleton l) as [|x y] eqn:Q.
    { exfalso. apply NE. pose proof (sorted_by_perm function_skeleton l) as P. rewrite Q in P. now apply Permutation_nil in P. }
    cbn [app tl_functions]. unfold dash, name_sx. cbn [tl_functions String.eqb Ascii.eqb Bool.eqb andb].
    rewrite E. cbn [bind]. unfold typed_tokens. cbn [flat_map fst snd]. now rewrite <- !app_assoc.
Qed.
Definition grouped_back (d : list (option string * list atom)) : functions_dict :=
  flat_map (fun kv => map (fun a => (a, fst kv)) (sorted_by function_skeleton (snd kv)))
           (sort_by (fun a b => str_lt (group_key a) (group_key b)) (typed_groups d))
  ++ map (fun a => (a, None)) (sorted_by function_skeleton (group_get None d)).
Lemma grouped_back_perm fs : Permutation (grouped_back (function_groups fs)) fs.
Proof.
  destruct (group_by_spec (map (fun kv : atom * option string => (snd kv, fst kv)) fs)) as (NK & _ & P).
  fold (function_groups fs) in *. set (d := function_groups fs) in *.
  transitivity (map (fun kv : option string * atom => (snd kv, fst kv)) (ungroup d)).
  - etransitivity; [|apply Permutation_map, ungroup_parts, NK]. unfold grouped_back. rewrite map_app.
    apply Permutation_app.
    + rewrite (Permutation_flat_map _ (sort_perm _ (typed_groups d))).
      unfold ungroup. clear. induction (typed_groups d) as [|kv l IH]; cbn [map flat_map]; auto.
      rewrite map_app, map_map. apply Permutation_app; auto. cbn [fst snd].
      apply Permutation_map, sorted_by_perm.
    + rewrite map_map. cbn [fst snd]. apply Permutation_map, sorted_by_perm.
  - rewrite (Permutation_map _ P). rewrite map_map. cbn [fst snd].
    rewrite <- (map_id fs) at 2. apply Permutation_refl'. apply map_ext. now intros [].
Qed.
Lemma function_groups_In fs k vs v : In (k, vs) (function_groups fs) -> In v vs -> In (v, k) fs.
Proof.
  intros Hi Hv. destruct (group_by_spec (map (fun kv : atom * option string => (snd kv, fst kv)) fs)) as (_ & _ & P).
  assert (In (k, v) (ungroup (function_groups fs))).
  { unfold ungroup. apply in_flat_map. exists (k, vs). split; auto. apply in_map_iff. eauto. }
  apply (Permutation_in _ P) in H. apply in_map_iff in H as ([n g] & E & Hc). cbn in E. now inversion E; subst.
Qed.
Lemma expressible_shape f : function_expressible f ->
  fun_shape (fst f) /\ (snd f = None \/ snd f = Some "number").
Proof. intros (vs & H1 & H2 & H3 & H4 & H5). split; auto. exists vs. auto. Qed.
Lemma legal_number : legal_type "number".
Proof. apply parse_type_Ok. reflexivity. Qed.
Lemma piece_functions fs : Forall function_expressible fs ->
  piece (print_functions fs) (opt_section ":functions" (fun_section fs)).
Proof.
  intros F. destruct fs as [|f fs]; [apply piece_nil|]. unfold fun_section, opt_section, print_functions.
  set (l := f :: fs) in *. fold (function_groups l).
  assert (R : rx (print_typed_lists function_skeleton ("(" +++ ":functions") (function_groups l) (")" +++ nl))
                 [section_sx ":functions" (typed_sx function_skeleton fun_sx (function_groups l))]).
  { apply rx_typed_lists; [split; [vm_compute; intuition|reflexivity]|].
    apply Forall_forall. intros [k vs] Hi. cbn [fst snd]. rewrite Forall_forall in F.
    destruct (group_by_spec (map (fun kv : atom * option string => (snd kv, fst kv)) l)) as (_ & NE & _).
    rewrite Forall_forall in NE. specialize (NE _ Hi). cbn in NE.
    assert (H : forall v, In v vs -> fun_shape v /\ (k = None \/ k = Some "number")).
    { intros v Hv. apply (expressible_shape (v, k)), F. eapply function_groups_In; eauto. }
    split.
    - destruct vs as [|v vs]; [contradiction|].
      destruct (H v (or_introl eq_refl)) as (_ & [-> | ->]); auto. apply legal_number.
    - apply Forall_forall. intros v Hv. now apply rx_fun, H. }
  destruct (typed_lists_end function_skeleton ("(" +++ ":functions") (function_groups l) (")" +++ nl)) as (a & E).
  apply (piece_end _ (a +++ ")") _ R). rewrite append_assoc, <- E. reflexivity.
Qed.
Lemma same_atom_eqb p q : same_atom p q -> atom_eqb p q = true.
Proof.
  destruct p as [n ts], q as [m us]. intros (E & ws & vs & E1 & E2 & F). cbn [fst snd] in *. subst.
  unfold atom_eqb. cbn [fst snd]. rewrite String.eqb_refl. cbn [andb]. apply list_eqb_Forall2.
  induction F as [|w v ws vs [H1 H2] F IH]; cbn [map]; constructor; auto.
  cbn [term_eqb]. now apply same_var_eqb.
Qed.
Definition same_fun (a b : atom * option string) : Prop := same_atom (fst a) (fst b) /\ snd a = snd b.
Lemma NoDupE_Forall2 {A} (eqb : A -> A -> bool) l m : is_equiv eqb ->
  Forall2 (fun a b => eqb a b = true) l m -> NoDupE eqb m -> NoDupE eqb l.
Proof.
  intros E. induction 1 as [|a b l m H F IH]; intros N; [constructor|].
  apply NoDupE_cons_inv in N as [N1 N2]. constructor; auto. apply memb_false. intros x Hx.
  apply Forall2_In_l with (1 := F) in Hx as (y & Hy & Q).
  rewrite memb_false in N1. specialize (N1 y Hy). destruct (eqb a x) eqn:AX; auto. rewrite <- N1.
  symmetry. apply (eqv_trans _ E _ x); [|exact Q]. apply (eqv_trans _ E _ a); auto. now rewrite (eqv_sym _ E).
Qed.
Lemma functions_read fs : Forall function_expressible fs -> fs <> [] -> NoDupE atom_eqb (map fst fs) ->
  exists fs' fs0, functions_section (typed_sx function_skeleton fun_sx (function_groups fs)) = Ok fs'
    /\ Permutation fs0 fs /\ Forall2 same_fun fs' fs0.
Proof.
  intros F NE ND.
  destruct (group_by_spec (map (fun kv : atom * option string => (snd kv, fst kv)) fs)) as (NK & NEG & P).
  fold (function_groups fs) in *. pose proof (grouped_back_perm fs) as PB.
  assert (IN : forall k vs v, In (k, vs) (function_groups fs) -> In v vs -> fun_shape v /\ (k = None \/ k = Some "number")).
  { intros k vs v Hi Hv. rewrite Forall_forall in F. apply (expressible_shape (v, k)), F. eapply function_groups_In; eauto. }
  assert (FT : Forall fun_shape (group_get None (function_groups fs))).
  { apply Forall_forall. intros v Hv. unfold group_get in Hv.
    destruct (dict_get (option_eqb String.eqb) None (function_groups fs)) as [vs|] eqn:G; [|contradiction].
    apply dict_get_In in G as (k' & Hi & _). eapply IN; eauto. }
  assert (FG : Forall (fun kv : option string * list atom => fst kv = Some "number" /\ snd kv <> [] /\ Forall fun_shape (snd kv))
     (sort_by (fun a b => str_lt (group_key a) (group_key b)) (typed_groups (function_groups fs)))).
  { eapply Permutation_Forall; [symmetry; apply sort_perm|]. apply Forall_forall. intros [k vs] Hi.
    unfold typed_groups in Hi. apply filter_In in Hi as [Hi T]. cbn [fst snd] in *.
    rewrite Forall_forall in NEG. specialize (NEG _ Hi). cbn in NEG. destruct k as [k|]; [|discriminate].
    split; [|split; auto].
    - destruct vs as [|v vs]; [contradiction|].
      destruct (IN _ _ v Hi (or_introl eq_refl)) as (_ & [C|C]); [discriminate|auto].
    - apply Forall_forall. intros v Hv. eapply IN; eauto. }
  destruct (tl_functions_groups _ FT _ FG) as (groups' & tail' & E & F2 & T).
  fold (typed_sx function_skeleton fun_sx (function_groups fs)) in E.
  set (as_ := assigned groups' tail').
  exists (map (fun kv => (fst kv, hd_error (snd kv))) as_), (grouped_back (function_groups fs)).
  assert (SF : Forall2 same_fun (map (fun kv => (fst kv, hd_error (snd kv))) as_) (grouped_back (function_groups fs))).
  { unfold as_, assigned, grouped_back. rewrite map_app. apply Forall2_app.
    - clear - F2 FG. induction F2 as [|[l ts] [k m] gs' gs (H1 & H2) F2 IH]; cbn [flat_map map]; [constructor|].
      inversion FG as [|? ? (K & _) FG']; subst. cbn [fst snd] in *. subst. rewrite map_app.
      apply Forall2_app; auto. clear - H2. induction H2; cbn [map]; constructor; auto.
      split; auto.
    - clear - T. induction T; cbn [map]; constructor; auto. split; auto. }
  split; [|split; auto].
  assert (NA : NoDupE atom_eqb (map fst as_)).
  { apply (NoDupE_Forall2 _ _ (map fst (grouped_back (function_groups fs))) atom_eqb_equiv).
    - clear - SF. remember (map (fun kv => (fst kv, hd_error (snd kv))) as_) as l eqn:EL.
      assert (EM : map fst as_ = map fst l) by (subst; rewrite map_map; apply map_ext; now intros []).
      rewrite EM. clear EM EL. induction SF as [|a b l m [H _] SF IH]; cbn [map]; constructor; auto. now apply same_atom_eqb.
    - eapply NoDupE_perm; [apply atom_eqb_equiv| |exact ND]. symmetry. now apply Permutation_map. }
  assert (ON : Forall (fun kv : atom * list string => snd kv = [] \/ snd kv = ["number"]) as_).
  { unfold as_, assigned. apply Forall_forall. intros [a gs] Hi. apply in_app_or in Hi as [Hi|Hi].
    - apply in_flat_map in Hi as ([l ts] & Hg & Hi). apply in_map_iff in Hi as (x & [= <- <-] & _).
      apply Forall2_In_l with (1 := F2) in Hg as (y & _ & H & _). cbn [fst snd] in *. subst. now right.
    - apply in_map_iff in Hi as (x & [= <- <-] & _). now left. }
  unfold functions_section. destruct (typed_sx function_skeleton fun_sx (function_groups fs)) as [|s l] eqn:Q.
  { exfalso. cbn in E. injection E as E. unfold typed_tokens in E.
    assert (tail' = []) by (destruct groups', tail'; cbn in E; destruct (fst _) || auto; discriminate || auto).
    assert (groups' = []) by (destruct groups' as [|[[|x y] z] w]; cbn in E; try discriminate; auto).
    subst. cbn in SF. inversion SF as [SF' SF''|]. apply NE. destruct (grouped_back (function_groups fs)) eqn:GB; [|inversion SF].
    now apply Permutation_nil in PB. }
  rewrite E. cbn [bind]. rewrite parse_typed_list_all. fold as_.
  rewrite (add_all_nodup atom_eqb atom_eqb_equiv).
  - cbn [app]. rewrite dedup_id by auto using atom_eqb_equiv. rewrite map_length, Nat.eqb_refl. cbn [bind]. unfold typed_list_of_names.
    cbn [ti_items]. assert (M : mapR (fun kv : atom * list string => match snd kv with [] => Ok (fst kv, None)
       | [g] => Ok (fst kv, Some g) | _ => Err ValueError end) as_
       = Ok (map (fun kv => (fst kv, hd_error (snd kv))) as_)).
    { clear - ON. induction ON as [|[a gs] l [H|H] ON IH]; cbn in *; subst; auto; rewrite IH; reflexivity. }
    rewrite M. reflexivity.
  - intros a gs Hi. split; auto. rewrite Forall_forall in ON. destruct (ON _ Hi) as [H|H]; cbn in H; subst; auto.
    constructor; auto. apply legal_number.
  - apply assigned_nodups.
  - constructor.
Qed.
