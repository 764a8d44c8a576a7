(** Proofs for C86. *)
From Coq Require Import String List Bool Lia.
From Verif Require Import Py Names Logic Validation Core Built Spec Spec_Core Names_facts Spec_Instantiate.
From Verif Require Import Py_facts Names_facts Logic_facts Built_facts Inst_facts Core_facts GroundPlan_facts.
Import ListNotations.

Definition atom_of (g : form) (ts : list term) : Prop := (exists n, g = FPred n ts) \/ exists l r, g = FEq l r /\ ts = [l; r].
Definition is_conditional (g : form) : Prop := (exists c e, g = FWhen c e) \/ exists vs e, g = FForall vs e.
Definition bad_atom (m : mapping) (f : form) : Prop :=
  exists g ts, within g f /\ atom_of g ts /\ ~ name_consistent (map (inst_term m) ts).
Definition cond_in (f : form) : Prop := exists g, within g f /\ is_conditional g.

Definition verdict {A} (m : mapping) (f : form) (r : res A) : Prop :=
  match r with
  | Ok _ => ~ bad_atom m f /\ ~ cond_in f
  | Err e => e = ValueError /\ bad_atom m f \/ e = AttributeError /\ cond_in f
  end.

Lemma mapR_verdict {A B} (P : A -> Prop) (Q : A -> exn -> Prop) (k : A -> res B) l :
  (forall x, In x l -> match k x with Ok _ => P x | Err e => Q x e end) ->
  match mapR k l with Ok _ => forall x, In x l -> P x | Err e => exists x, In x l /\ Q x e end.
Proof.
  induction l as [|x l IH]; intros H; cbn; [tauto|].
  pose proof (H x (or_introl eq_refl)) as Hx. destruct (k x) as [y|e]; cbn; [|eauto].
  specialize (IH (fun z I => H z (or_intror I))). destruct (mapR k l) as [ys|e]; cbn.
  - intros z [<-|I]; auto.
  - destruct IH as (z & I & Hz). eauto.
Qed.

Lemma instantiate_verdict m f : names_ok f -> verdict m f (instantiate m f).
Proof.
  assert (WL : forall ops k, (forall x, In x ops -> names_ok x -> verdict m x (instantiate m x)) -> Forall names_ok ops ->
    (forall g, within g k -> g = k \/ exists x, In x ops /\ within g x) ->
    (forall g x, In x ops -> within g x -> within g k) ->
    (forall ts, ~ atom_of k ts) -> ~ is_conditional k ->
    verdict m k (mapR (instantiate m) ops)).
  { intros ops k H N W1 W2 NA NC. rewrite Forall_forall in N.
    pose proof (mapR_verdict (fun x => ~ bad_atom m x /\ ~ cond_in x)
       (fun x e => e = ValueError /\ bad_atom m x \/ e = AttributeError /\ cond_in x) (instantiate m) ops (fun x I => H x I (N x I))) as V.
    destruct (mapR (instantiate m) ops) as [ys|e]; cbn.
    - split.
      + intros (g & ts & W & A & C). destruct (W1 g W) as [->|(x & I & Wx)]; [now apply (NA ts)|].
        apply (proj1 (V x I)). exists g, ts. auto.
      + intros (g & W & C). destruct (W1 g W) as [->|(x & I & Wx)]; [auto|]. apply (proj2 (V x I)). exists g. auto.
    - destruct V as (x & I & [[-> (g & ts & W & A)]|[-> (g & W & A)]]); [left|right]; split; auto.
      + exists g, ts. split; auto. eapply W2; eauto.
      + exists g. split; auto. eapply W2; eauto. }
  assert (W1 : forall x k, verdict m x (instantiate m x) ->
    (forall g, within g k -> g = k \/ within g x) ->
    (forall g, within g x -> within g k) ->
    (forall ts, ~ atom_of k ts) -> ~ is_conditional k ->
    verdict m k (instantiate m x)).
  { intros x k V E1 E2 NA NC. destruct (instantiate m x) as [y|e]; cbn in *.
    - destruct V as [V1 V2]. split.
      + intros (g & ts & W & A & C). destruct (E1 g W) as [->|Wx]; [now apply (NA ts)|]. apply V1. exists g, ts. auto.
      + intros (g & W & C). destruct (E1 g W) as [->|Wx]; [auto|]. apply V2. exists g. auto.
    - destruct V as [[-> (g & ts & W & A)]|[-> (g & W & A)]]; [left|right]; split; auto.
      + exists g, ts. auto.
      + exists g. auto. }
  assert (AT : forall g ts (k : res form), (forall h, within h g -> h = g) -> atom_of g ts -> ~ is_conditional g ->
    (k = Err ValueError /\ check_terms_consistency (map (inst_term m) ts) <> Ok tt \/ (exists y, k = Ok y) /\ check_terms_consistency (map (inst_term m) ts) = Ok tt) ->
    verdict m g k).
  { intros g ts k W A C K. destruct K as [[-> K]|[(y & ->) K]]; cbn.
    - left. split; auto. exists g, ts. split; [constructor|]. split; auto. intros X. apply check_terms_consistency_Ok in X. auto.
    - split.
      + intros (h & us & Wh & Ah & Ch). apply W in Wh. subst h. apply Ch. apply check_terms_consistency_Ok.
        replace us with ts; auto. destruct A as [(n & E)|(l & r & E & ->)], Ah as [(n' & E')|(l' & r' & E' & ->)]; congruence.
      + intros (h & Wh & Ch). apply W in Wh. subst h. auto. }
  assert (MV : forall {A B} (k : form) (r : res A) (h : A -> B), verdict m k r -> verdict m k (let* x := r in Ok (h x))).
  { intros A B k [x|e] h; cbn; auto. }
  induction f using form_ind'; cbn [instantiate]; intros N.
  - apply (AT _ ts); [intros h X; inversion X; auto|left; eauto|intros [(?&?&X)|(?&?&X)]; discriminate|].
    cbn in N. unfold mk_pred. rewrite (proj2 (parse_name_Ok _) N). cbn [bind].
    destruct (consistency_from_err (map (inst_term m) ts) []) as [X|X]; unfold check_terms_consistency; rewrite X; cbn; [right|left]; eauto. split; auto. discriminate.
  - apply (AT _ [l; r]); [intros h X; inversion X; auto|right; eauto|intros [(?&?&X)|(?&?&X)]; discriminate|].
    unfold mk_eq. cbn [map].
    destruct (consistency_from_err [inst_term m l; inst_term m r] []) as [X|X]; unfold check_terms_consistency; rewrite X; cbn; [right|left]; eauto. split; auto. discriminate.
  - cbn in N. unfold mk_numfun. rewrite (proj2 (parse_function_Ok _) N). cbn. split.
    + intros (g & us & W & A & _). inversion W; subst. destruct A as [(? & A)|(? & ? & A & _)]; discriminate.
    + intros (g & W & A). inversion W; subst. destruct A as [(? & ? & A)|(? & ? & A)]; discriminate.
  - cbn. split.
    + intros (g & us & W & A & _). inversion W; subst. destruct A as [(? & A)|(? & ? & A & _)]; discriminate.
    + intros (g & W & A). inversion W; subst. destruct A as [(? & ? & A)|(? & ? & A)]; discriminate.
  - cbn in N. rewrite fold_and_Forall in N. rewrite Forall_forall in H. apply MV. apply WL; auto.
    + intros g W. inversion W; subst; eauto.
    + intros. econstructor; eauto.
    + intros us [(? & A)|(? & ? & A & _)]; discriminate.
    + intros [(? & ? & A)|(? & ? & A)]; discriminate.
  - cbn in N. rewrite fold_and_Forall in N. rewrite Forall_forall in H. apply MV. apply WL; auto.
    + intros g W. inversion W; subst; eauto.
    + intros. econstructor; eauto.
    + intros us [(? & A)|(? & ? & A & _)]; discriminate.
    + intros [(? & ? & A)|(? & ? & A)]; discriminate.
  - apply MV. apply W1; auto.
    + intros g W. inversion W; subst; eauto.
    + intros. now constructor.
    + intros us [(? & A)|(? & ? & A & _)]; discriminate.
    + intros [(? & ? & A)|(? & ? & A)]; discriminate.
  - apply MV. apply W1; auto.
    + intros g W. inversion W; subst; eauto.
    + intros. now constructor.
    + intros us [(? & A)|(? & ? & A & _)]; discriminate.
    + intros [(? & ? & A)|(? & ? & A)]; discriminate.
  - cbn. right. split; auto. eexists. split; [constructor|]. left. eauto.
  - cbn. right. split; auto. eexists. split; [constructor|]. right. eauto.
Qed.

Lemma bad_built m f : built f -> verdict m f (instantiate m f).
Proof. intros B. apply instantiate_verdict. now apply built_names. Qed.

(** ** the replacement *)
Lemma same_variable_eqb v w : same_variable v w <-> var_eqb v w = true.
Proof.
  unfold same_variable, var_eqb. rewrite andb_true_iff, String.eqb_eq, set_eqb_string. tauto.
Qed.
Lemma stands_for_inst vs cs t u : NoDup (map v_name vs) -> length cs = length vs ->
  (stands_for (map TVar vs) cs t u <-> u = inst_term (combine (map TVar vs) (map const_term cs)) t).
Proof.
  intros N L. destruct t as [n g|w].
  { cbn. split; [now inversion 1|intros ->; constructor]. }
  unfold inst_term.
  assert (G : forall vs cs, NoDup (map v_name vs) -> length cs = length vs ->
    match dict_get term_eqb (TVar w) (combine (map TVar vs) (map const_term cs)) with
    | Some x => exists i v c, nth_error vs i = Some v /\ nth_error cs i = Some c /\ same_variable v w /\ x = const_term c
    | None => forall v, In v vs -> ~ same_variable v w
    end).
  { clear. induction vs as [|v vs IH]; intros [|c cs] N L; cbn; try discriminate; [tauto|].
    inversion N as [|? ? N1 N2]; subst. destruct (var_eqb w v) eqn:E.
    - exists 0, v, c. cbn. repeat split; auto. all: apply same_variable_eqb in E as [E1 E2]; auto; apply E2.
    - specialize (IH cs N2 (eq_add_S _ _ L)). destruct (dict_get _ _ _).
      + destruct IH as (i & v' & c' & X). exists (S i), v', c'. exact X.
      + intros x [<-|I] X; [|now apply (IH x I)]. destruct X as [X1 X2]. assert (Y : same_variable w v) by (split; auto; intros; symmetry; apply X2).
        apply same_variable_eqb in Y. congruence. }
  specialize (G vs cs N L). destruct (dict_get _ _ _) as [x|].
  - destruct G as (i & v & c & Vi & Ci & S & ->). split.
    + inversion 1 as [|j v' w' c' P Q R|w' P]; subst.
      * rewrite nth_error_map in P. destruct (nth_error vs j) as [v2|] eqn:Vj; [|discriminate]. injection P as ->.
        assert (i = j).
        { rewrite NoDup_nth_error in N. apply N.
          - rewrite map_length. apply nth_error_Some. congruence.
          - rewrite !nth_error_map, Vi, Vj. cbn. f_equal. destruct S, R. congruence. }
        subst j. assert (c' = c) by congruence. subst. reflexivity.
      * exfalso. apply (P v); auto. apply in_map. eapply nth_error_In; eauto.
    + intros ->. unfold const_term. apply SF_param with (i := i) (v := v); auto. now rewrite nth_error_map, Vi.
  - split.
    + inversion 1 as [|j v' w' c' P Q R|w' P]; subst; auto. exfalso. rewrite nth_error_map in P.
      destruct (nth_error vs j) as [v2|] eqn:Vj; [|discriminate]. injection P as ->. apply (G v'); auto. eapply nth_error_In; eauto.
    + intros ->. apply SF_other. intros v I. apply G. apply in_map_iff in I as (v' & [= ->] & I). exact I.
Qed.
Lemma stands_for_list vs cs ts us : NoDup (map v_name vs) -> length cs = length vs ->
  (Forall2 (stands_for (map TVar vs) cs) ts us <-> us = map (inst_term (combine (map TVar vs) (map const_term cs))) ts).
Proof.
  intros N L. split.
  - induction 1 as [|t u ts us S F IH]; cbn; auto. apply stands_for_inst in S; auto. congruence.
  - intros ->. induction ts; cbn; constructor; auto. now apply stands_for_inst.
Qed.

Lemma inconsistent_pair us : ~ name_consistent us <->
  exists t u, In t us /\ In u us /\ t_name t = t_name u /\ ~ (forall x, In x (t_tags t) <-> In x (t_tags u)).
Proof.
  split.
  - intros N. destruct (existsb (fun t => existsb (fun u => String.eqb (t_name t) (t_name u) && negb (set_eqb String.eqb (t_tags t) (t_tags u))) us) us) eqn:E.
    + apply existsb_exists in E as (t & I & E). apply existsb_exists in E as (u & J & E). apply andb_true_iff in E as [E1 E2].
      apply String.eqb_eq in E1. apply negb_true_iff in E2. exists t, u. repeat split; auto. intros X. apply set_eqb_string in X. congruence.
    + exfalso. apply N. intros t u I J K. apply set_eqb_string. destruct (set_eqb String.eqb (t_tags t) (t_tags u)) eqn:X; auto.
      assert (existsb (fun t => existsb (fun u => String.eqb (t_name t) (t_name u) && negb (set_eqb String.eqb (t_tags t) (t_tags u))) us) us = true); [|congruence].
      apply existsb_exists. exists t. split; auto. apply existsb_exists. exists u. split; auto. rewrite X, K, String.eqb_refl. reflexivity.
  - intros (t & u & I & J & K & X) C. apply X, C; auto.
Qed.

Lemma ground_verdict a cs : proper_schema a ->
  match action_instantiate a (map const_term cs) with
  | Ok _ => can_ground a cs
  | Err e => e = ValueError /\ (length cs <> length (a_params a) \/ clash a cs)
             \/ e = AttributeError /\ length cs = length (a_params a) /\ has_conditional a
  end.
Proof.
  intros ((vs & PV & N) & LN & B). unfold action_instantiate. rewrite map_length.
  destruct (Nat.eqb (length cs) (length (a_params a))) eqn:L; cbn [check bind].
  2:{ apply PeanoNat.Nat.eqb_neq in L. left. auto. }
  apply PeanoNat.Nat.eqb_eq in L. assert (Lv : length cs = length vs) by (rewrite L, PV; apply map_length).
  assert (Em : dict_of_list term_eqb (combine (a_params a) (map const_term cs)) = combine (map TVar vs) (map const_term cs)) by (rewrite PV; now apply mapping_distinct).
  rewrite Em. set (m := combine (map TVar vs) (map const_term cs)) in *. clear Em.
  assert (CL : forall f, (a_pre a = Some f \/ a_eff a = Some f) -> bad_atom m f -> clash a cs).
  { intros f F (g & ts & W & A & C). exists g, ts, (map (inst_term m) ts). split; [exists f; auto|]. split; [exact A|].
    split; [rewrite PV; now apply stands_for_list|]. now apply inconsistent_pair. }
  assert (CC : forall f, (a_pre a = Some f \/ a_eff a = Some f) -> cond_in f -> has_conditional a).
  { intros f F (g & W & A). exists g. split; [exists f; auto|exact A]. }
  assert (V : forall f, (a_pre a = Some f \/ a_eff a = Some f) -> verdict m f (instantiate m f)) by (intros f F; apply bad_built; auto).
  assert (O : forall o, (forall f, o = Some f -> a_pre a = Some f \/ a_eff a = Some f) ->
     match inst_opt m o with
     | Ok _ => forall f, o = Some f -> ~ bad_atom m f /\ ~ cond_in f
     | Err e => e = ValueError /\ clash a cs \/ e = AttributeError /\ has_conditional a
     end).
  { intros [f|] F; cbn; [|discriminate]. specialize (F f eq_refl). pose proof (V f F) as Vf. destruct (instantiate m f) as [g|e]; cbn in *.
    - intros f' [= <-]. exact Vf.
    - destruct Vf as [[-> X]|[-> X]]; [left|right]; eauto. }
  pose proof (O (a_pre a) (fun f E => or_introl E)) as O1. pose proof (O (a_eff a) (fun f E => or_intror E)) as O2.
  destruct (inst_opt m (a_pre a)) as [p|e]; cbn [bind].
  2:{ destruct O1 as [[-> X]|[-> X]]; [left|right]; auto. }
  destruct (inst_opt m (a_eff a)) as [q|e]; cbn [bind].
  2:{ destruct O2 as [[-> X]|[-> X]]; [left|right]; auto. }
  unfold mk_action. rewrite (proj2 (parse_name_Ok _) LN). cbn [bind]. split; auto.
  assert (X : forall f, (a_pre a = Some f \/ a_eff a = Some f) -> ~ bad_atom m f /\ ~ cond_in f) by (intros f [E|E]; auto).
  split.
  - intros (g & (f & F & W) & C). apply (proj2 (X f F)). exists g. auto.
  - intros (g & ts & us & (f & F & W) & A & S & P). apply (proj1 (X f F)). exists g, ts. split; auto. split; auto.
    rewrite PV in S. apply stands_for_list in S; auto. fold m in S. subst us. now apply inconsistent_pair.
Qed.

(** ** plans *)
Lemma step_gives_is d st r : NoDup (map a_name (d_actions d)) ->
  (step_gives d st r <->
   r = match dict_get String.eqb (fst st) (name_to_schema d) with
       | None => Err ValueError
       | Some a => action_instantiate a (map const_term (snd st))
       end).
Proof.
  intros N. destruct (dict_get String.eqb (fst st) (name_to_schema d)) as [a|] eqn:G.
  - apply schema_get in G as [I E]; auto. split.
    + intros [(b & J & F & ->)|(X & _)]; [|now destruct (X a)].
      assert (dict_get String.eqb (fst st) (name_to_schema d) = Some b) as K by (apply schema_get; auto).
      assert (dict_get String.eqb (fst st) (name_to_schema d) = Some a) as K' by (apply schema_get; auto). rewrite K in K'. injection K' as ->. reflexivity.
    + intros ->. left. exists a. auto.
  - assert (X : forall a, In a (d_actions d) -> a_name a <> fst st).
    { intros a I E. assert (dict_get String.eqb (fst st) (name_to_schema d) = Some a) by (apply schema_get; auto). congruence. }
    split.
    + intros [(b & J & F & _)|(_ & ->)]; auto. now destruct (X b).
    + intros ->. right. auto.
Qed.
Lemma mapR_first_Err {A B} (k : A -> res B) l e : mapR k l = Err e <->
  exists pre x post ys, l = pre ++ x :: post /\ Forall2 (fun a b => k a = Ok b) pre ys /\ k x = Err e.
Proof.
  split.
  - induction l as [|x l IH]; cbn; [discriminate|]. destruct (k x) as [y|e'] eqn:K; cbn.
    + destruct (mapR k l) as [ys|e'']; cbn; [discriminate|]. intros [= ->]. destruct (IH eq_refl) as (pre & x' & post & ys & -> & F & E).
      exists (x :: pre), x', post, (y :: ys). repeat split; auto.
    + intros [= ->]. exists [], x, l, []. repeat split; auto.
  - intros (pre & x & post & ys & -> & F & E). induction F as [|a b pre ys H F IH]; cbn.
    + now rewrite E.
    + rewrite H. cbn. now rewrite IH.
Qed.
