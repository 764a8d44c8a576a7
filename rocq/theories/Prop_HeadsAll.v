(** C53 for all heads, also those in which a variable is repeated. *)
From Coq Require Import String List Bool Arith.
From Verif Require Import Py Names Reqs Logic Validation Core Lexer TypedList UpdateTags Parser.
From Verif Require Import Spec_Core Spec_Parse Spec_Domain Spec_Features Spec_Declared Spec_Heads Spec_HeadsAll.
From Verif Require Import Py_facts Domain_facts MeaningText_facts Declared_facts FormatDomain_facts DomainText_facts Vars_facts HeadsAll_facts Prop_Heads.
Import ListNotations.
Open Scope string_scope.
Open Scope list_scope.

(** every derived predicate of a parsed domain stands in the text as [(:derived (p ..) c)], and [p] is
    declared with as many arguments; each argument has the types that the last place of its variable
    gives, that is those written or else those declared *)
Theorem C53_exact :
  forall s n sections d x, domain_text s n sections -> parse_domain_fresh s = Ok d -> In x (d_derived d) ->
    exists vs c groups tail us ws,
      In (section_sx ":derived" [SList (name_sx (dp_name x) :: vs); c]) sections
      /\ written_vars vs groups tail
      /\ dp_terms x = map TVar us /\ In (dp_name x, map TVar ws) (d_predicates d)
      /\ head_in_general (d_types d) (as_vars (assigned groups tail)) ws us.
Proof.
  intros s n l d x T P I. destruct (parsed_domain_parts s d P) as (n' & l' & T' & PP).
  unfold domain_text in T, T'. rewrite T in T'. injection T' as <- <-.
  destruct (pp_derived _ _ PP x I) as (body & s1 & s2 & Hb & D & F).
  destruct body as [|h [|c [|]]]; try discriminate.
  destruct (head_general d s1 h c s2 x F D) as (vs & us & ws & A & E & Hp & H).
  destruct (skeleton_iff _ _ _ A) as (vs' & -> & (groups & tail & W) & V). specialize (V _ _ W).
  exists vs', c, groups, tail, us, ws. repeat (split; [assumption|]).
  replace (as_vars (assigned groups tail)) with vs; auto.
  apply map_TVar_inj. rewrite V. unfold variables, as_vars. now rewrite map_map.
Qed.
Print Assumptions C53_exact.

(** the text of C53_refuted, in which a variable is repeated *)
Example C53_exact_ex : exists n l d x, domain_text twice_text n l /\ parse_domain_fresh twice_text = Ok d /\ In x (d_derived d)
  /\ last_types (combine [mkVar "z" []; mkVar "z" []] [mkVar "x" ["t"]; mkVar "y" ["u"]]) "z" ["u"]
  /\ ~ last_types (combine [mkVar "z" []; mkVar "z" []] [mkVar "x" ["t"]; mkVar "y" ["u"]]) "z" ["t"].
Proof.
  do 4 eexists. split; [vm_compute; reflexivity|]. split; [vm_compute; reflexivity|]. split; [left; reflexivity|]. split.
  - exists [(mkVar "z" [], mkVar "x" ["t"])], (mkVar "z" [], mkVar "y" ["u"]), []. repeat split; try discriminate; auto. intros o [].
  - intros (b & x & a & E & N & P & S & O). destruct b as [|y [|y' b]]; cbn in E.
    + injection E as <- <-. specialize (O _ (or_introl eq_refl) eq_refl). discriminate.
    + injection E as _ <- <-. destruct (proj1 (S "t") (or_introl eq_refl)) as [X|[]]. discriminate.
    + destruct b; discriminate.
Qed.
