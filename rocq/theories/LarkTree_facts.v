(** The trees of the productions and the trees of the rules (Spec_Lark.v) are the same. *)
From Coq Require Import String Ascii List Bool PArith FMapPositive Arith Lia.
From Verif Require Import Py Names Lexer Spec_Grammar Lark Spec_Lark Py_facts LarkLR_facts.
Import ListNotations.
Open Scope string_scope.
Open Scope list_scope.

(** ** the tree of the rules that a tree of the productions stands for *)
Fixpoint kids (a : list el) (us : list (list ptree)) : list ptree :=
  match a with
  | [] => []
  | EAbsent :: a' => PNone :: kids a' us
  | ES (BT t) :: a' => match us with u :: us' => (if filtered t then [] else u) ++ kids a' us' | [] => [] end
  | ES (BN _) :: a' => match us with u :: us' => u ++ kids a' us' | [] => [] end
  end.
Fixpoint pt (t : btree) : list ptree :=
  match t with
  | BLeaf w => [PLeaf w]
  | BNode (Rule n) a ts => [PNode n (kids a (map pt ts))]
  | BNode (Rep _) a ts => kids a (map pt ts)
  end.
Lemma kids_app a : forall us b vs, length us = length (syms a) -> kids (a ++ b) (us ++ vs) = kids a us ++ kids b vs.
Proof.
  induction a as [|[[t|A]|] a IH]; intros us b vs L.
  - destruct us; [reflexivity|discriminate].
  - destruct us as [|u us]; [discriminate|]. cbn [app kids]. rewrite IH by (cbn in L; now injection L). now rewrite app_assoc.
  - destruct us as [|u us]; [discriminate|]. cbn [app kids]. rewrite IH by (cbn in L; now injection L). now rewrite app_assoc.
  - cbn [app kids]. now rewrite IH.
Qed.
Lemma filtered_base t : filtered (base t) = dropped t.
Proof.
  destruct t as [|c t]; [reflexivity|]. cbn [base]. destruct (Ascii.eqb_spec c "@") as [->|]; [reflexivity|]. reflexivity.
Qed.
Lemma width_holes e : width e = holes e.
Proof. reflexivity. Qed.
Lemma syms_app a b : syms (a ++ b) = syms a ++ syms b.
Proof. unfold syms. apply flat_map_app. Qed.
Lemma syms_absent n : syms (repeat EAbsent n) = [].
Proof. induction n; auto. Qed.
Lemma kids_absent n : kids (map er_el (repeat EAbsent n)) [] = repeat PNone n.
Proof. induction n; cbn; auto. now rewrite IHn. Qed.
Lemma joins_In {A} (a b : list (list A)) x : In x (joins a b) <-> exists u v, In u a /\ In v b /\ x = u ++ v.
Proof.
  unfold joins. rewrite in_flat_map. split.
  - intros (u & I & J). apply in_map_iff in J as (v & <- & J). eauto.
  - intros (u & v & I & J & ->). exists u. split; auto. now apply in_map.
Qed.

Section Trees.
  Variable wat : string -> string -> Prop.
  Notation D := (D wat). Notation Ds := (Ds wat). Notation tree := (tree wat).

  Lemma Ds_app l1 : forall l2 ts w nx, Ds (l1 ++ l2) ts w nx ->
    exists t1 t2 u v, ts = t1 ++ t2 /\ w = u ++ v /\ Ds l1 t1 u (next v nx) /\ Ds l2 t2 v nx.
  Proof.
    induction l1 as [|x l1 IH]; intros l2 ts w nx H.
    - exists [], ts, [], w. repeat split; auto. apply Ds_nil.
    - cbn [app] in H. inversion H; subst. match goal with K : LarkLR_facts.Ds _ (l1 ++ l2) _ _ _ |- _ => apply IH in K as (t1 & t2 & u1 & v1 & -> & -> & K1 & K2) end.
      exists (t :: t1), t2, (u ++ u1), v1. rewrite <- app_assoc. repeat split; auto. apply Ds_cons; auto. now rewrite next_app in *.
  Qed.
  Lemma Ds_join l1 t1 u nx0 : Ds l1 t1 u nx0 -> forall l2 t2 v nx, nx0 = next v nx -> Ds l2 t2 v nx -> Ds (l1 ++ l2) (t1 ++ t2) (u ++ v) nx.
  Proof.
    intros H; induction H as [nx0|x l t ts u1 u2 nx0 Dx Dl IH]; intros l2 t2 v nx E K; [exact K|]. subst. cbn [app]. rewrite <- app_assoc. apply Ds_cons; [now rewrite next_app|eauto].
  Qed.
  Lemma Ds_len l ts w nx : Ds l ts w nx -> length ts = length l.
  Proof. induction 1; cbn; auto. Qed.

  (** what is shown of a tree *)
  Definition means (x : bsym) (t : btree) (w : tokens) (nx : string * string) : Prop :=
    match x with
    | BT c => exists v, t = BLeaf v /\ w = [(base c, v)] /\ wat c v
    | BN (Rule n) => exists cs, pt t = [PNode (base n) cs] /\ tree (N n) [PNode (base n) cs] w nx
    | BN (Rep e) => tree (Plus e) (pt t) w nx
    end.
  Inductive all_mean : list bsym -> list btree -> tokens -> string * string -> Prop :=
  | M_nil nx : all_mean [] [] [] nx
  | M_cons x l t ts u v nx : means x t u (next v nx) -> all_mean l ts v nx -> all_mean (x :: l) (t :: ts) (u ++ v) nx.
  Lemma all_mean_app l1 : forall l2 ts w nx, all_mean (l1 ++ l2) ts w nx ->
    exists t1 t2 u v, ts = t1 ++ t2 /\ w = u ++ v /\ all_mean l1 t1 u (next v nx) /\ all_mean l2 t2 v nx.
  Proof.
    induction l1 as [|x l1 IH]; intros l2 ts w nx H.
    - exists [], ts, [], w. repeat split; auto. apply M_nil.
    - cbn [app] in H. inversion H; subst. match goal with K : all_mean (l1 ++ l2) _ _ _ |- _ => apply IH in K as (t1 & t2 & u1 & v1 & -> & -> & K1 & K2) end.
      exists (t :: t1), t2, (u ++ u1), v1. rewrite <- app_assoc. repeat split; auto. apply M_cons; auto. now rewrite next_app in *.
  Qed.
  Lemma all_mean_len l ts w nx : all_mean l ts w nx -> length ts = length l.
  Proof. induction 1; cbn; auto. Qed.
  Lemma all_mean_nil ts w nx : all_mean [] ts w nx -> ts = [] /\ w = [].
  Proof. inversion 1; auto. Qed.
  Lemma all_mean_one x ts w nx : all_mean [x] ts w nx -> exists t, ts = [t] /\ means x t w nx.
  Proof.
    inversion 1 as [|? ? t ts' u v ? M K]; subst. apply all_mean_nil in K as [-> ->]. cbn [next] in M. exists t. now rewrite app_nil_r.
  Qed.
  Notation ek a ts := (kids (map er_el a) (map pt ts)).
  Lemma ek_app a b t1 t2 : length t1 = length (syms a) -> ek (a ++ b) (t1 ++ t2) = ek a t1 ++ ek b t2.
  Proof. intros L. rewrite !map_app. apply kids_app. now rewrite map_length, syms_er, map_length. Qed.

  Lemma alts_tree e : forall a ts w nx, In a (alts e) -> all_mean (syms a) ts w nx -> tree e (ek a ts) w nx.
  Proof.
    induction e as [t|n|l IH|l IH|e IH|e IH|e IH] using sym_ind'; intros a ts w nx I M; cbn [alts] in I.
    - destruct I as [<-|[]]. cbn in M. apply all_mean_one in M as (b & -> & v & -> & -> & W). cbn [map er_el er_b kids pt].
      rewrite filtered_base, app_nil_r. apply P_T. exact W.
    - destruct I as [<-|[]]. cbn in M. apply all_mean_one in M as (b & -> & cs & E & K). cbn [map er_el er_b kids]. rewrite E, app_nil_r. exact K.
    - revert a ts w nx I M. induction IH as [|x l X _ IH]; intros a ts w nx I M; cbn in I.
      + destruct I as [<-|[]]. apply all_mean_nil in M as [-> ->]. apply P_Seq_nil.
      + apply joins_In in I as (a1 & a2 & I1 & I2 & ->). rewrite syms_app in M. apply all_mean_app in M as (t1 & t2 & u & v & -> & -> & M1 & M2).
        rewrite ek_app by (eapply all_mean_len; eauto). apply P_Seq_cons; auto.
    - assert (Z : exists x, In x l /\ In a (alts x)).
      { clear -I. induction l as [|x l IHl]; [destruct I|]. apply in_app_or in I as [I|I]; [exists x; split; auto; now left|]. destruct (IHl I) as (y & A & B). exists y. split; auto. now right. }
      destruct Z as (x & J & K). eapply P_Alt; [exact J|]. rewrite Forall_forall in IH. eauto.
    - apply in_app_or in I as [I|[<-|[]]].
      + apply P_Opt_some. eauto.
      + rewrite syms_absent in M. apply all_mean_nil in M as [-> ->]. cbn [map]. rewrite kids_absent, width_holes. apply P_Opt_none.
    - destruct I as [<-|[<-|[]]].
      + cbn in M. apply all_mean_one in M as (b & -> & K). cbn [map er_el er_b kids]. rewrite app_nil_r. now apply P_Star_some.
      + apply all_mean_nil in M as [-> ->]. apply P_Star_nil.
    - destruct I as [<-|[]]. cbn in M. apply all_mean_one in M as (b & -> & K). cbn [map er_el er_b kids]. rewrite app_nil_r. exact K.
  Qed.
  Lemma D_tree : (forall x t w nx, D x t w nx -> means x t w nx) /\ (forall l ts w nx, Ds l ts w nx -> all_mean l ts w nx).
  Proof.
    apply D_both.
    - intros t w nx W. cbn. eauto.
    - intros A a no ts w nx I NO _ M. destruct A as [n|e]; cbn [prods_of er_nt means pt] in *.
      + eexists; split; [reflexivity|]. apply in_flat_map in I as ([[m e] no'] & I & J). destruct (String.eqb_spec m n) as [->|]; [|destruct J]. apply in_map_iff in J as (a' & E & J). inversion E; subst.
        eapply P_N; [exact I|exact NO|]. now apply alts_tree.
      + apply in_map_iff in I as (a' & E & I). inversion E; subst. unfold rep_alts in I. apply in_app_or in I as [I|I].
        * apply P_Plus_one. now apply alts_tree.
        * apply in_map_iff in I as (a' & <- & I). change (syms (ES (BN (Rep e)) :: a')) with ([BN (Rep e)] ++ syms a') in M.
          apply all_mean_app in M as (t1 & t2 & u & v & -> & -> & M1 & M2). apply all_mean_one in M1 as (b & -> & K).
          cbn [map er_el er_b kids app]. apply P_Plus_more; [exact K|]. now apply alts_tree.
    - intros nx. apply M_nil.
    - intros x l t ts u v nx _ M1 _ M2. now apply M_cons.
  Qed.

  (** and back *)
  Lemma tree_D e cs w nx : tree e cs w nx -> exists a ts, In a (alts e) /\ Ds (syms a) ts w nx /\ ek a ts = cs.
  Proof.
    induction 1 as [t w nx W|n e no cs w nx I NO K IH|nx|e l c1 c2 u v nx K1 IH1 K2 IH2|e l cs w nx I K IH|e nx|e cs w nx K IH|e nx|e cs w nx K IH|e cs w nx K IH|e c1 c2 u v nx K1 IH1 K2 IH2].
    - exists [ES (BT t)], [BLeaf w]. split; [now left|]. split.
      + cbn. change [(base t, w)] with ([(base t, w)] ++ @nil (string * string)). apply Ds_cons; [now apply D_leaf|apply Ds_nil].
      + cbn [map er_el er_b kids pt]. now rewrite filtered_base, app_nil_r.
    - destruct IH as (a & ts & J & DD & E). exists [ES (BN (Rule n))], [BNode (Rule (base n)) (map er_el a) ts]. split; [now left|]. split.
      + cbn. rewrite <- (app_nil_r w). apply Ds_cons; [|apply Ds_nil]. cbn [next]. apply (D_node wat (Rule n) a no); auto.
        cbn [prods_of]. apply in_flat_map. exists (n, e, no). split; auto. rewrite String.eqb_refl. apply in_map_iff. eauto.
      + cbn [map er_el er_b kids pt]. now rewrite E.
    - exists [], []. split; [now left|]. split; [apply Ds_nil|reflexivity].
    - destruct IH1 as (a1 & t1 & J1 & D1 & E1). destruct IH2 as (a2 & t2 & J2 & D2 & E2). exists (a1 ++ a2), (t1 ++ t2). split; [|split].
      + cbn [alts]. apply joins_In. exists a1, a2. auto.
      + rewrite syms_app. eapply Ds_join; eauto.
      + rewrite ek_app by (eapply Ds_len; eauto). congruence.
    - destruct IH as (a & ts & J & DD & E). exists a, ts. split; auto. cbn [alts]. clear -I J. induction l as [|x l IHl]; [destruct I|]. apply in_or_app. destruct I as [->|I]; auto.
    - exists (repeat EAbsent (width e)), []. split; [cbn [alts]; apply in_or_app; right; now left|]. split; [rewrite syms_absent; apply Ds_nil|]. cbn [map]. now rewrite kids_absent, width_holes.
    - destruct IH as (a & ts & J & DD & E). exists a, ts. split; auto. cbn [alts]. apply in_or_app; auto.
    - exists [], []. split; [right; now left|]. split; [apply Ds_nil|reflexivity].
    - destruct IH as (a & ts & J & DD & E). cbn [alts] in *. destruct J as [<-|[]]. exists [ES (BN (Rep e))], ts. split; [now left|]. auto.
    - destruct IH as (a & ts & J & DD & E). exists [ES (BN (Rep e))], [BNode (Rep (er_sym e)) (map er_el a) ts]. split; [now left|]. split.
      + cbn. rewrite <- (app_nil_r w). apply Ds_cons; [|apply Ds_nil]. cbn [next]. apply (D_node wat (Rep e) a []); auto; [|intros ? ? []].
        cbn [prods_of]. apply in_map_iff. exists a. split; auto. apply in_or_app; auto.
      + cbn [map er_el er_b kids pt]. now rewrite E, app_nil_r.
    - destruct IH1 as (a1 & t1 & J1 & D1 & E1). destruct IH2 as (a2 & t2 & J2 & D2 & E2). cbn [alts] in J1. destruct J1 as [<-|[]].
      exists [ES (BN (Rep e))], [BNode (Rep (er_sym e)) (map er_el (ES (BN (Rep e)) :: a2)) (t1 ++ t2)]. split; [now left|]. split.
      + cbn. rewrite <- (app_nil_r (u ++ v)). apply Ds_cons; [|apply Ds_nil]. cbn [next]. apply (D_node wat (Rep e) (ES (BN (Rep e)) :: a2) []); [|intros ? ? []|].
        * cbn [prods_of]. apply in_map_iff. eexists; split; [reflexivity|]. apply in_or_app; right. now apply in_map.
        * change (syms (ES (BN (Rep e)) :: a2)) with (syms [ES (BN (Rep e))] ++ syms a2). eapply Ds_join; eauto.
      + transitivity (ek ([ES (BN (Rep e))] ++ a2) (t1 ++ t2)); [exact (app_nil_r _)|].
        rewrite ek_app by (eapply Ds_len; eauto). congruence.
  Qed.
  Lemma rule_tree n cs w nx : tree (N n) cs w nx <-> exists t, D (BN (Rule n)) t w nx /\ pt t = cs.
  Proof.
    split.
    - intros H. apply tree_D in H as (a & ts & I & K & E). cbn [alts] in I. destruct I as [<-|[]]. cbn in K. inversion K; subst. match goal with X : LarkLR_facts.Ds _ [] _ _ _ |- _ => inversion X; subst end.
      rewrite app_nil_r. cbn [next] in *. eexists; split; [eassumption|]. cbn [map er_el er_b kids]. now rewrite app_nil_r.
    - intros (t & H & <-). apply D_tree in H. cbn [means] in H. destruct H as (cs & E & K). now rewrite E.
  Qed.
End Trees.

(** ** evaluation *)
Section Eval.
  Context {V St : Type}.
  Variables (leaf : string -> V) (none : V) (splice : list V -> V) (spliced : V -> list V).
  Hypothesis spliced_splice : forall l, spliced (splice l) = l.
  Variable callback : string -> list V -> St -> St * res V.
  Notation reduce := (build none splice spliced callback).
  Notation evalT := (evalT leaf reduce).
  (** the callbacks of a tree, in the order of the text *)
  Fixpoint evalP (t : ptree) : St -> St * res V :=
    match t with
    | PLeaf w => fun st => (st, Ok (leaf w))
    | PNone => fun st => (st, Ok none)
    | PNode n cs => seqm (evalm evalP cs) (call callback n)
    end.
  (** the shape of a tree fits the symbols *)
  Inductive shaped : bsym -> btree -> Prop :=
  | S_leaf c w : shaped (BT c) (BLeaf w)
  | S_node A a ts : shapes (syms a) ts -> shaped (BN A) (BNode A a ts)
  with shapes : list bsym -> list btree -> Prop :=
  | S_nil : shapes [] []
  | S_cons x l t ts : shaped x t -> shapes l ts -> shapes (x :: l) (t :: ts).
  Scheme shaped_mind := Minimality for shaped Sort Prop
  with shapes_mind := Minimality for shapes Sort Prop.
  Combined Scheme shaped_both from shaped_mind, shapes_mind.
  Lemma D_shaped wat : (forall x t w nx, D wat x t w nx -> shaped (er_b x) t) /\ (forall l ts w nx, Ds wat l ts w nx -> shapes (map er_b l) ts).
  Proof.
    apply D_both; intros; cbn [er_b map]; try constructor; auto. now rewrite syms_er.
  Qed.

  Definition evals_as (x : bsym) (t : btree) : Prop :=
    match x with
    | BT _ => exists w, t = BLeaf w
    | BN (Rule _) => exists p, pt t = [p] /\ forall st, evalT t st = evalP p st
    | BN (Rep _) => forall st, evalT t st = seqm (evalm evalP (pt t)) (fun vs st => (st, Ok (splice vs))) st
    end.
  Inductive all_eval : list bsym -> list btree -> Prop :=
  | E_nil : all_eval [] []
  | E_cons x l t ts : evals_as x t -> all_eval l ts -> all_eval (x :: l) (t :: ts).
  Lemma children_eval a : forall ts, all_eval (syms a) ts -> forall st,
    seqm (evalm evalT ts) (fun vs st => (st, Ok (children none spliced a vs))) st = evalm evalP (kids a (map pt ts)) st.
  Proof.
    induction a as [|x a IH]; intros ts H st.
    - cbn in H. inversion H; subst. reflexivity.
    - destruct x as [[c|[n|e]]|].
      + cbn [syms flat_map app] in H. inversion H as [|? ? t ts' E H']; subst. destruct E as [w ->]. cbn [map kids pt]. specialize (IH _ H' st). unfold seqm in *. cbn [evalm LarkLR_facts.evalT]. unfold seqm.
        destruct (filtered c) eqn:FL; cbn [app].
        * rewrite <- IH. destruct (evalm evalT ts' st) as [st' [vs|ex]]; [|reflexivity]. cbn [children]. now rewrite FL.
        * cbn [evalm evalP]. unfold seqm. rewrite <- IH. destruct (evalm evalT ts' st) as [st' [vs|ex]]; [|reflexivity]. cbn [children]. now rewrite FL.
      + cbn [syms flat_map app] in H. inversion H as [|? ? t ts' E H']; subst. destruct E as (p & E1 & E2). cbn [map kids]. rewrite E1. cbn [app evalm]. unfold seqm. rewrite E2. destruct (evalP p st) as [st1 [v|ex]]; [|reflexivity].
        specialize (IH _ H' st1). unfold seqm in IH. rewrite <- IH. destruct (evalm evalT ts' st1) as [st' [vs|ex]]; reflexivity.
      + cbn [syms flat_map app] in H. inversion H as [|? ? t ts' E H']; subst. cbn [evals_as] in E. cbn [map kids]. rewrite evalm_app. cbn [evalm]. unfold seqm. rewrite E. unfold seqm.
        destruct (evalm evalP (pt t) st) as [st1 [vs|ex]]; [|reflexivity]. specialize (IH _ H' st1). unfold seqm in IH. rewrite <- IH. destruct (evalm evalT ts' st1) as [st' [us|ex]]; [|reflexivity].
        cbn [children]. now rewrite spliced_splice.
      + cbn [syms flat_map app] in H. specialize (IH _ H st). cbn [map kids evalm evalP]. unfold seqm in *. rewrite <- IH. destruct (evalm evalT ts st) as [st' [vs|ex]]; reflexivity.
  Qed.
  Lemma seqm_assoc {A B C} (m : St -> St * res A) (k : A -> St -> St * res B) (h : B -> St -> St * res C) st :
    seqm (seqm m k) h st = seqm m (fun a => seqm (k a) h) st.
  Proof. unfold seqm. destruct (m st) as [st1 [a|e]]; reflexivity. Qed.
  Lemma shaped_eval : (forall x t, shaped x t -> evals_as x t) /\ (forall l ts, shapes l ts -> all_eval l ts).
  Proof.
    apply shaped_both.
    - intros c w. cbn. eauto.
    - intros A a ts _ H. pose proof (children_eval a ts H) as CE. destruct A as [n|e]; cbn [evals_as pt].
      + eexists; split; [reflexivity|]. intros st. cbn [LarkLR_facts.evalT evalP]. transitivity (seqm (seqm (evalm evalT ts) (fun vs st => (st, Ok (children none spliced a vs)))) (call callback n) st).
        * rewrite seqm_assoc. unfold seqm. destruct (evalm evalT ts st) as [st1 [vs|ex]]; reflexivity.
        * unfold seqm at 1. rewrite CE. reflexivity.
      + intros st. cbn [LarkLR_facts.evalT]. transitivity (seqm (seqm (evalm evalT ts) (fun vs st => (st, Ok (children none spliced a vs)))) (fun vs st => (st, Ok (splice vs))) st).
        * rewrite seqm_assoc. unfold seqm. destruct (evalm evalT ts st) as [st1 [vs|ex]]; reflexivity.
        * unfold seqm at 1. rewrite CE. reflexivity.
    - apply E_nil.
    - intros. now apply E_cons.
  Qed.
  Lemma rule_eval wat n t w nx : D wat (BN (Rule n)) t w nx -> exists p, pt t = [p] /\ forall st, evalT t st = evalP p st.
  Proof. intros H. apply D_shaped in H. apply shaped_eval in H. exact H. Qed.
End Eval.
