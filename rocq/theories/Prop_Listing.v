(** C77: the order in which things are listed does not matter. *)
From Coq Require Import String List Bool Permutation.
From Verif Require Import Py Py_facts Req Names Reqs Logic Validation Core Lexer TypedList UpdateTags Parser.
From Verif Require Import Spec Spec_Core Spec_Parse Spec_Declared Spec_Apart Spec_Listing.
From Verif Require Import CoreEq_facts Logic_facts Listing_facts ListingText_facts.
Import ListNotations.
Open Scope string_scope.
Open Scope list_scope.

(** false in general: a predicate name declared twice with different arguments, and a derived
    predicate of that name; the last declaration counts *)
Definition two_ways (ps : string) : string :=
  ("(define (domain d) (:predicates (q ?x) " ++ ps ++ ") (:derived (p ?x) (q ?x)))")%string.
Theorem C77_refuted : exists d,
  parse_domain_fresh (two_ways "(p ?x ?y) (p ?x)") = Ok d /\
  parse_domain_fresh (two_ways "(p ?x) (p ?x ?y)") = Err LarkParseError.
Proof. eexists. split; vm_compute; reflexivity. Qed.
Print Assumptions C77_refuted.
(** false of the constructor: two constants of one name are [==], the first one is kept, and only
    that one is checked *)
Theorem C77_constructor_refuted :
  mk_domain "d" [] None [("a", Some "t"); ("a", None)] [] [] [] [] = Err PDDLValidationError /\
  exists d, mk_domain "d" [] None [("a", None); ("a", Some "t")] [] [] [] [] = Ok d.
Proof. split; [vm_compute; reflexivity|]. eexists. vm_compute. reflexivity. Qed.
Print Assumptions C77_constructor_refuted.

(** what does hold, 1: [Domain(...)] with the things in any order, and repeated or not, as long as
    [==] tells them apart *)
Theorem C77_domain_partial : forall n rs rs' types types' cs cs' ps ps' dps dps' fs fs' acts acts' d,
  same_items rs rs' -> same_items cs cs' -> same_items ps ps' -> same_items dps dps' -> same_items acts acts' ->
  told_apart const_eqb cs -> told_apart atom_eqb ps -> told_apart derived_eqb dps -> told_apart action_eqb acts ->
  both (fun t t' => Permutation t' t /\ NoDup (map fst t)) types types' ->
  Permutation fs' fs -> NoDupE atom_eqb (map fst fs) ->
  mk_domain n rs types cs ps dps fs acts = Ok d ->
  exists d', mk_domain n rs' types' cs' ps' dps' fs' acts' = Ok d' /\ domain_eqb d' d = true.
Proof.
  intros n rs rs' t t' cs cs' ps ps' dps dps' fs fs' acts acts' d Sr Sc Sp Sd Sa Tc Tp Td Ta B Pf Nf H.
  assert (X : exists dt dt', Permutation dt' dt /\ NoDup (map fst dt) /\ (forall rs cs ps dps fs acts, mk_domain n rs t cs ps dps fs acts = mk_domain n rs (Some dt) cs ps dps fs acts)
       /\ forall rs cs ps dps fs acts, mk_domain n rs t' cs ps dps fs acts = mk_domain n rs (Some dt') cs ps dps fs acts).
  { destruct t as [dt|], t' as [dt'|]; cbn in B; try tauto; [exists dt, dt'|exists [], []]; repeat split; try tauto; constructor. }
  destruct X as (dt & dt' & Pt & Nt & E & E'). rewrite E in H. rewrite E'.
  eapply mk_domain_listing; [exact Nt|exact Nf|exact Sr|exact Pt|exact Pf| | | | |exact H]; intros x; apply same_items_dedup; auto.
  - apply const_eqb_equiv.
  - apply atom_eqb_equiv.
  - apply derived_eqb_equiv.
  - apply action_eqb_equiv.
Qed.
Print Assumptions C77_domain_partial.

(** 2: [Problem(...)] without a domain object: any lists whatever *)
Theorem C77_problem : forall n dn rs rs' objs objs' init init' goal metric p,
  both same_items rs rs' -> same_items objs objs' -> same_items init init' ->
  mk_problem n None dn rs objs init goal metric = Ok p ->
  exists p', mk_problem n None dn rs' objs' init' goal metric = Ok p' /\ problem_eqb p' p = true.
Proof. intros. eapply (mk_problem_listing _ None); eauto. Qed.
Print Assumptions C77_problem.
(** with one: as long as [==] tells the objects and the facts apart *)
Theorem C77_problem_with_domain_partial : forall n d dn rs rs' objs objs' init init' goal metric p,
  NoDupE String.eqb (map fst (d_types d)) -> NoDupE atom_eqb (map fst (d_functions d)) ->
  both same_items rs rs' -> same_items objs objs' -> same_items init init' ->
  told_apart const_eqb objs -> told_apart form_eqb init ->
  mk_problem n (Some d) dn rs objs init goal metric = Ok p ->
  exists p', mk_problem n (Some d) dn rs' objs' init' goal metric = Ok p' /\ problem_eqb p' p = true.
Proof. intros n d dn rs rs' objs objs' init init' goal m p N1 N2 R O I To Ti H. eapply (mk_problem_listing _ (Some d)); eauto. repeat split; auto. Qed.
Print Assumptions C77_problem_with_domain_partial.

(** 3: two domain texts whose declarations list the same things in different orders and groupings
    are read as equal domains, as long as no predicate is declared twice in different ways *)
Theorem C77_domain_text_partial : forall s s' n rq rq' ty ty' cs cs' ps ps' fs fs' defs d,
  domain_text s n (declarations rq ty cs ps fs ++ defs) -> domain_text s' n (declarations rq' ty' cs' ps' fs' ++ defs) ->
  Forall definition defs ->
  both same_items rq rq' -> both same_listing ty ty' -> both same_listing cs cs' -> both same_predicates ps ps' -> both same_functions fs fs' ->
  parse_domain_fresh s = Ok d -> exists d', parse_domain_fresh s' = Ok d' /\ domain_eqb d' d = true.
Proof. exact domain_listing. Qed.
Print Assumptions C77_domain_text_partial.

(** 4: two problem texts that list the same requirements, objects and facts *)
Theorem C77_problem_text : forall s s' n dn rq rq' os os' inits inits' rest p,
  problem_text s n dn (opt_section ":requirements" rq ++ opt_section ":objects" os ++ section_sx ":init" inits :: rest) ->
  problem_text s' n dn (opt_section ":requirements" rq' ++ opt_section ":objects" os' ++ section_sx ":init" inits' :: rest) ->
  both same_items rq rq' -> both same_listing os os' -> same_items inits inits' ->
  parse_problem s = Ok p -> exists p', parse_problem s' = Ok p' /\ problem_eqb p' p = true.
Proof. exact problem_listing. Qed.
Print Assumptions C77_problem_text.

(** the hypotheses are met *)
Definition sections_of (s : string) : list sexp :=
  match read_text s with Some [SList (_ :: _ :: l)] => l | _ => [] end.
Definition body_of (x : sexp) : list sexp := match x with SList (_ :: l) => l | _ => [] end.
Definition rest_of : string := "(:action act :parameters (?x - t) :precondition (p ?x a) :effect (not (p ?x b)))".
Definition one_order : string :=
  ("(define (domain d) (:requirements :typing :fluents) (:types t u - v v) (:constants a b - t c) (:predicates (p ?x ?y - t) (q)) (:functions (f ?x) (g) - number)" ++ rest_of ++ ")")%string.
Definition other_order : string :=
  ("(define (domain d) (:requirements :fluents :typing :fluents) (:types u - v t - v v) (:constants b - t a - t c) (:predicates (q) (p ?x ?y - t) (q)) (:functions (g) (f ?x) - number)" ++ rest_of ++ ")")%string.
Definition part (s : string) (i : nat) : list sexp := body_of (nth i (sections_of s) (SList [])).
Definition the_defs : list sexp := [nth 5 (sections_of one_order) (SList [])].
Example C77_text_ex :
  domain_text one_order "d" (declarations (Some (part one_order 0)) (Some (part one_order 1)) (Some (part one_order 2)) (Some (part one_order 3)) (Some (part one_order 4)) ++ the_defs) /\
  domain_text other_order "d" (declarations (Some (part other_order 0)) (Some (part other_order 1)) (Some (part other_order 2)) (Some (part other_order 3)) (Some (part other_order 4)) ++ the_defs) /\
  Forall definition the_defs /\ same_items (part one_order 0) (part other_order 0) /\
  same_listing (part one_order 1) (part other_order 1) /\ same_listing (part one_order 2) (part other_order 2) /\
  same_predicates (part one_order 3) (part other_order 3) /\ same_functions (part one_order 4) (part other_order 4) /\
  exists d, parse_domain_fresh one_order = Ok d.
Proof.
  split; [vm_compute; reflexivity|]. split; [vm_compute; reflexivity|].
  split; [constructor; [left; eexists; vm_compute; reflexivity|constructor]|].
  split; [intros x; cbn; tauto|].
  split.
  { exists [(["t"; "u"], ["v"])], ["v"], [(["u"], ["v"]); (["t"], ["v"])], ["v"]. split; [|split].
    - apply (wn_group ["t"; "u"] "v" [name_sx "v"]); [discriminate|discriminate|apply (wn_tail ["v"])].
    - apply (wn_group ["u"] "v" [name_sx "t"; dash; name_sx "v"; name_sx "v"]); [discriminate|discriminate|].
      apply (wn_group ["t"] "v" [name_sx "v"]); [discriminate|discriminate|apply (wn_tail ["v"])].
    - cbn. apply perm_swap. }
  split.
  { exists [(["a"; "b"], ["t"])], ["c"], [(["b"], ["t"]); (["a"], ["t"])], ["c"]. split; [|split].
    - apply (wn_group ["a"; "b"] "t" [name_sx "c"]); [discriminate|discriminate|apply (wn_tail ["c"])].
    - apply (wn_group ["b"] "t" [name_sx "a"; dash; name_sx "t"; name_sx "c"]); [discriminate|discriminate|].
      apply (wn_group ["a"] "t" [name_sx "c"]); [discriminate|discriminate|apply (wn_tail ["c"])].
    - cbn. apply perm_swap. }
  split.
  { split; [intros x; cbn; tauto|]. intros p vs ws I J. vm_compute in I, J.
    destruct I as [I|[I|[]]], J as [J|[J|[]]]; injection I as <- <-; injection J; intros; subst; try reflexivity; discriminate. }
  split.
  { set (f := nth 0 (part one_order 4) (SList [])). set (g := nth 1 (part one_order 4) (SList [])).
    exists [(f, Some "number"); (g, Some "number")], [(g, Some "number"); (f, Some "number")]. split; [|split; [|apply perm_swap]].
    - apply (wf_group [f; g] [] []); [discriminate| |apply (wf_tail []); constructor].
      repeat (apply Forall_cons || apply Forall_nil); eexists; vm_compute; reflexivity.
    - apply (wf_group [g; f] [] []); [discriminate| |apply (wf_tail []); constructor].
      repeat (apply Forall_cons || apply Forall_nil); eexists; vm_compute; reflexivity. }
  eexists. vm_compute. reflexivity.
Qed.
(** three facts and two objects in two orders; one fact twice *)
Definition problem_order (objs init : string) : string :=
  ("(define (problem p) (:domain d) (:requirements :typing) (:objects " ++ objs ++ ") (:init " ++ init ++ ") (:goal (q)))")%string.
Definition p1 : string := problem_order "a b - t c" "(p a) (not (p b)) (= (f) 2)".
Definition p2 : string := problem_order "b - t a - t c" "(= (f) 2) (p a) (not (p b)) (p a)".
Definition psect (s : string) (i : nat) : list sexp :=
  match read_text s with Some [SList (_ :: _ :: _ :: l)] => body_of (nth i l (SList [])) | _ => [] end.
Example C77_problem_ex :
  let rest := [section_sx ":goal" [SList [name_sx "q"]]] in
  problem_text p1 "p" "d" (opt_section ":requirements" (Some (psect p1 0)) ++ opt_section ":objects" (Some (psect p1 1)) ++ section_sx ":init" (psect p1 2) :: rest) /\
  problem_text p2 "p" "d" (opt_section ":requirements" (Some (psect p2 0)) ++ opt_section ":objects" (Some (psect p2 1)) ++ section_sx ":init" (psect p2 2) :: rest) /\
  same_listing (psect p1 1) (psect p2 1) /\ same_items (psect p1 2) (psect p2 2) /\
  exists p, parse_problem p1 = Ok p.
Proof.
  split; [vm_compute; reflexivity|]. split; [vm_compute; reflexivity|]. split; [|split].
  - exists [(["a"; "b"], ["t"])], ["c"], [(["b"], ["t"]); (["a"], ["t"])], ["c"]. split; [|split].
    + apply (wn_group ["a"; "b"] "t" [name_sx "c"]); [discriminate|discriminate|apply (wn_tail ["c"])].
    + apply (wn_group ["b"] "t" [name_sx "a"; dash; name_sx "t"; name_sx "c"]); [discriminate|discriminate|].
      apply (wn_group ["a"] "t" [name_sx "c"]); [discriminate|discriminate|apply (wn_tail ["c"])].
    + cbn. apply perm_swap.
  - intros x. cbn. tauto.
  - eexists. vm_compute. reflexivity.
Qed.
(** two constants, two predicates and two types for the constructor *)
Example C77_domain_ex :
  let cs := [("a", Some "t"); ("b", None)] in
  let types := [("t", None); ("u", Some "t")] in
  told_apart const_eqb cs /\ NoDup (map fst types) /\
  exists d, mk_domain "d" [TYPING; FLUENTS] (Some types) cs [("p", [])] [] [(("f", []), None)] [] = Ok d.
Proof.
  cbn zeta. split; [|split].
  - intros x y [<-|[<-|[]]] [<-|[<-|[]]] E; auto; discriminate E.
  - repeat constructor; cbn; intuition discriminate.
  - eexists. vm_compute. reflexivity.
Qed.
