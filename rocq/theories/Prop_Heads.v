(** C53: the arguments of a derived predicate have the types written in its head, or else the
    declared ones. *)
From Coq Require Import String List Bool Arith.
From Verif Require Import Py Names Reqs Logic Validation Core Lexer TypedList UpdateTags Parser.
From Verif Require Import Spec_Core Spec_Parse Spec_Domain Spec_Features Spec_Declared Spec_Heads.
From Verif Require Import Py_facts Domain_facts MeaningText_facts Declared_facts FormatDomain_facts DomainText_facts Vars_facts HeadTypes_facts.
Import ListNotations.
Open Scope string_scope.
Open Scope list_scope.

(** [(either ..)] written after some variables, as variables *)
Definition as_vars (l : list (string * list string)) : list var := map (fun p => mkVar (fst p) (snd p)) l.

(** Every derived predicate of a parsed domain stands in the text as [(:derived (p ..) c)], and [p]
    is declared with as many arguments; each argument is as [head_arg_of] says.  For heads whose
    variables are distinct. *)
Theorem C53_partial :
  forall s n sections d x, domain_text s n sections -> parse_domain_fresh s = Ok d -> In x (d_derived d) ->
    NoDup (map t_name (dp_terms x)) ->
    exists vs c groups tail us ws,
      In (section_sx ":derived" [SList (name_sx (dp_name x) :: vs); c]) sections
      /\ written_vars vs groups tail
      /\ dp_terms x = map TVar us /\ In (dp_name x, map TVar ws) (d_predicates d)
      /\ head_of (d_types d) (as_vars (assigned groups tail)) ws us.
Proof.
  intros s n l d x T P I N. destruct (parsed_domain_parts s d P) as (n' & l' & T' & PP).
  unfold domain_text in T, T'. rewrite T in T'. injection T' as <- <-.
  destruct (pp_derived _ _ PP x I) as (body & s1 & s2 & Hb & D & F).
  destruct body as [|h [|c [|]]]; try discriminate.
  destruct (head_written d s1 h c s2 x F D N) as (vs & us & ws & A & E & Hp & H).
  destruct (skeleton_iff _ _ _ A) as (vs' & -> & (groups & tail & W) & V). specialize (V _ _ W).
  exists vs', c, groups, tail, us, ws. repeat (split; [assumption|]).
  replace (as_vars (assigned groups tail)) with vs; auto.
  apply map_TVar_inj. rewrite V. unfold variables, as_vars. now rewrite map_map.
Qed.
Print Assumptions C53_partial.

(** and every [(:derived (p ..) c)] of the text gives one *)
Theorem C53_all :
  forall s n sections d p vs c, domain_text s n sections -> parse_domain_fresh s = Ok d ->
    In (section_sx ":derived" [SList (name_sx p :: vs); c]) sections ->
    exists x, In x (d_derived d) /\ dp_name x = p.
Proof.
  intros s n l d p vs c T P I. unfold parse_domain_fresh in P.
  destruct (parse_domain s init_dstate) as [st' r] eqn:E. cbn [snd] in P. subst r.
  destruct (parsed_structures _ _ _ _ _ T E) as (_ & _ & _ & X).
  destruct (X _ I) as (s1 & s2 & dp & D & _ & M). apply (memb_In derived_eqb) in M as (x & Hx & Q). exists x. split; auto.
  unfold derived_eqb in Q. apply andb_true_iff in Q as [Q _]. cbn in Q. apply andb_true_iff in Q as [Q _].
  apply String.eqb_eq in Q. rewrite <- Q. clear - D.
  unfold derived_def, bindM, ret, reads in D.
  destruct (atomic_formula_skeleton _) as [head|] eqn:A; [|discriminate].
  destruct (gd _ c) as [cond|]; [|discriminate]. apply (f_equal snd) in D. cbn [snd] in D. unfold derived_callback in D.
  destruct (dict_get _ _ _) as [def|]; [|discriminate].
  apply bind_Ok in D as ([] & _ & D). apply bind_Ok in D as (m & _ & D). apply bind_Ok in D as (q & U & D).
  apply bind_Ok in D as (cond' & _ & D). simpl in U. apply bind_Ok in U as (ts' & _ & U). apply Built_facts.mk_pred_Ok in U. subst q.
  injection D as <-. cbn [dp_name].
  destruct head as [hn ts]. destruct (skeleton_iff _ _ _ A) as (vs' & X & _). unfold name_sx in X. now injection X as ->.
Qed.
Print Assumptions C53_all.

(** A variable that is repeated in the head takes the types of its last place everywhere. *)
Definition twice_text : string :=
  "(define (domain d) (:requirements :typing :derived-predicates) (:types t u)
     (:predicates (p ?x - t ?y - u) (q)) (:derived (p ?z ?z) (q)))".
Theorem C53_refuted :
  exists d x, parse_domain_fresh twice_text = Ok d /\ In x (d_derived d)
    /\ dp_terms x = map TVar [mkVar "z" ["u"]; mkVar "z" ["u"]]
    /\ d_predicates d = [("p", map TVar [mkVar "x" ["t"]; mkVar "y" ["u"]]); ("q", [])]
    /\ ~ head_of (d_types d) [mkVar "z" []; mkVar "z" []] [mkVar "x" ["t"]; mkVar "y" ["u"]] [mkVar "z" ["u"]; mkVar "z" ["u"]].
Proof.
  do 2 eexists. split; [vm_compute; reflexivity|]. split; [left; reflexivity|]. split; [reflexivity|]. split; [reflexivity|].
  intros [_ H]. inversion H as [|? ? ? ? (_ & X & _) _]; subst. cbn in X.
  destruct (proj1 (X eq_refl "u") (or_introl eq_refl)) as [|[]]. discriminate.
Qed.
Print Assumptions C53_refuted.

(** ** Example: one argument takes the declared type, the other keeps the type written *)
Definition heads_text : string :=
  "(define (domain d) (:requirements :typing :derived-predicates) (:types block - object small - block)
     (:predicates (above ?a ?b - block) (on ?a ?b - block))
     (:derived (above ?y - small ?x) (on ?y ?x)))".
Example C53_ex : exists n l d x, domain_text heads_text n l /\ parse_domain_fresh heads_text = Ok d /\ d_derived d = [x]
  /\ NoDup (map t_name (dp_terms x)) /\ dp_terms x = map TVar [mkVar "y" ["small"]; mkVar "x" ["block"]].
Proof.
  do 4 eexists. split; [vm_compute; reflexivity|]. split; [vm_compute; reflexivity|]. split; [reflexivity|].
  split; [|reflexivity]. repeat constructor; cbn; intuition discriminate.
Qed.
