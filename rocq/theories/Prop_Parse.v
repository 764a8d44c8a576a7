(** Properties of the parser: typed lists. *)
From Coq Require Import String List Bool.
From Verif Require Import Py Names Reqs Logic Validation Core Lexer TypedList Parser.
From Verif Require Import Py_facts Names_facts Spec_Parse TypedList_facts Parse_facts.
Import ListNotations.
Open Scope string_scope.
Open Scope list_scope.

(** * C24  Typed lists assign to each name exactly the type that follows it *)

(** [TypedListParser.parse_typed_list(tokens, allow_duplicates=True)
    .get_typed_list_of_variables()] *)
Theorem C24_variables :
  forall groups tail r,
    (let* ix := parse_typed_list String.eqb parse_name (typed_tokens groups tail) true in
     Ok (typed_list_of_variables ix)) = Ok r
    <-> r = assigned groups tail /\ legal_items r /\ repeats_agree r.
Proof. exact var_list_Ok. Qed.
Print Assumptions C24_variables.

(** [TypedListParser.parse_typed_list(tokens).get_typed_list_of_names()] *)
Theorem C24_names :
  forall groups tail r,
    (let* ix := parse_typed_list String.eqb parse_name (typed_tokens groups tail) false in
     typed_list_of_names ix) = Ok r
    <-> r = map (fun kv => (fst kv, hd_error (snd kv))) (assigned groups tail)
        /\ legal_items (assigned groups tail)
        /\ NoDup (map fst (assigned groups tail))
        /\ Forall (fun kv => length (snd kv) <= 1) (assigned groups tail).
Proof. exact name_list_Ok. Qed.
Print Assumptions C24_names.

(** with legal names and types, every other list is a ValueError *)
Theorem C24_errors :
  forall groups tail, legal_items (assigned groups tail) ->
    (~ repeats_agree (assigned groups tail) ->
     (let* ix := parse_typed_list String.eqb parse_name (typed_tokens groups tail) true in
      Ok (typed_list_of_variables ix)) = Err ValueError)
    /\ (~ (NoDup (map fst (assigned groups tail))
           /\ Forall (fun kv => length (snd kv) <= 1) (assigned groups tail)) ->
        (let* ix := parse_typed_list String.eqb parse_name (typed_tokens groups tail) false in
         typed_list_of_names ix) = Err ValueError).
Proof.
  exact (fun groups tail L => conj (var_list_Err groups tail L) (name_list_Err groups tail L)).
Qed.
Print Assumptions C24_errors.

(** these are all the token lists that the grammar produces *)
Theorem C24_grammar :
  (forall l r, typed_list_variable l = Ok r <->
     exists groups tail, written_vars l groups tail
       /\ r = assigned groups tail /\ legal_items r /\ repeats_agree r)
  /\ (forall l r, typed_list_name l = Ok r <->
     exists groups tail, written_names l groups tail
       /\ r = map (fun kv => (fst kv, hd_error (snd kv))) (assigned groups tail)
       /\ legal_items (assigned groups tail) /\ NoDup (map fst (assigned groups tail)))
  /\ (forall l, (forall groups tail, ~ written_vars l groups tail) ->
        typed_list_variable l = Err LarkSyntaxError)
  /\ (forall l, (forall groups tail, ~ written_names l groups tail) ->
        typed_list_name l = Err LarkSyntaxError).
Proof.
  exact (conj typed_list_variable_iff (conj typed_list_name_iff
        (conj typed_list_variable_syntax typed_list_name_syntax))).
Qed.
Print Assumptions C24_grammar.

(** x y - t  z - (either u v)  w *)
Example C24_witness :
  let groups := [(["x"; "y"], ["t"]); (["z"], ["u"; "v"])] in
  let tail := ["w"] in
  (let* ix := parse_typed_list String.eqb parse_name (typed_tokens groups tail) true in
   Ok (typed_list_of_variables ix))
  = Ok [("x", ["t"]); ("y", ["t"]); ("z", ["u"; "v"]); ("w", [])]
  /\ (let* ix := parse_typed_list String.eqb parse_name
                   (typed_tokens [(["x"; "y"], ["t"])] tail) false in
      typed_list_of_names ix)
     = Ok [("x", Some "t"); ("y", Some "t"); ("w", None)]
  /\ (let* ix := parse_typed_list String.eqb parse_name
                   (typed_tokens [(["x"; "x"], ["t"])] tail) false in
      typed_list_of_names ix) = Err ValueError
  /\ (let* ix := parse_typed_list String.eqb parse_name
                   (typed_tokens [(["x"; "y"], ["t"])] ["x"]) true in
      Ok (typed_list_of_variables ix)) = Err ValueError.
Proof. repeat split; vm_compute; reflexivity. Qed.
Example C24_grammar_witness :
  exists l, read_text "?x ?y - t ?z - (either u v) ?w" = Some l
    /\ typed_list_variable l
       = Ok [("x", ["t"]); ("y", ["t"]); ("z", ["u"; "v"]); ("w", [])].
Proof. eexists. split; vm_compute; reflexivity. Qed.

(** * C44  Errors in typed lists are reported as PDDLParsingError *)

(** the sections, whatever was parsed before *)
Theorem C44_partial :
  (forall l st, repeats_a_name l -> snd (types_section l st) = Err PDDLParsingError)
  /\ (forall l st, repeats_a_name l -> snd (constants_section l st) = Err PDDLParsingError)
  /\ (forall l, repeats_a_name l -> objects_section l = Err PDDLParsingError)
  /\ (forall l st, repeats_inconsistently l ->
        snd (action_parameters l st) = Err PDDLParsingError)
  /\ (forall n l, repeats_inconsistently l ->
        atomic_formula_skeleton (SList (name_sx n :: l)) = Err PDDLParsingError).
Proof. exact bad_sections. Qed.
Print Assumptions C44_partial.

(** whole texts in which the faulty section comes after at most a :requirements section *)
Theorem C44_texts_partial :
  (forall s st n keys rest l, require_keys keys <> Err LarkSyntaxError -> repeats_a_name l ->
     domain_text s n (section_sx ":types" l :: rest)
     \/ domain_text s n (section_sx ":constants" l :: rest)
     \/ domain_text s n (section_sx ":requirements" keys :: section_sx ":types" l :: rest)
     \/ domain_text s n (section_sx ":requirements" keys :: section_sx ":constants" l :: rest) ->
     snd (parse_domain s st) = Err PDDLParsingError)
  /\ (forall s n d keys rest l, require_keys keys <> Err LarkSyntaxError -> repeats_a_name l ->
     problem_text s n d (section_sx ":objects" l :: rest)
     \/ problem_text s n d (section_sx ":requirements" keys :: section_sx ":objects" l :: rest) ->
     parse_problem s = Err PDDLParsingError).
Proof. exact bad_texts. Qed.
Print Assumptions C44_texts_partial.

(** a repeated function is reported as a TypeError *)
Theorem C44_refuted :
  exists s, parse_domain_fresh s = Err TypeError
    /\ exists n rest, domain_text s n (rest ++ [section_sx ":functions"
         [SList [name_sx "fuel"]; SList [name_sx "fuel"]]]).
Proof.
  exists "(define (domain d) (:requirements :fluents) (:functions (fuel) (fuel)))".
  split; [vm_compute; reflexivity|].
  exists "d", [section_sx ":requirements" [SAtom (TKw ":fluents")]]. vm_compute. reflexivity.
Qed.
Print Assumptions C44_refuted.

Example C44_witness :
  repeats_a_name (map name_sx ["a"; "b"; "a"])
  /\ repeats_inconsistently (var_sx "x" ++ [dash; name_sx "t"] ++ var_sx "x")
  /\ parse_domain_fresh "(define (domain d) (:types a b a))" = Err PDDLParsingError
  /\ parse_problem "(define (problem p) (:domain d) (:objects a a - t) (:init) (:goal (and)))"
     = Err PDDLParsingError.
Proof.
  split; [|split; [|split; vm_compute; reflexivity]].
  - exists [], ["a"; "b"; "a"]. split; [constructor|]. split.
    + intros a gs H. vm_compute in H.
      repeat (destruct H as [[= <- <-]|H]; [split; [apply parse_name_Ok; reflexivity|constructor]|]).
      destruct H.
    + intros H. vm_compute in H. inversion H; subst. apply H2. right. left. reflexivity.
  - exists [(["x"], ["t"])], ["x"]. split.
    + apply (wv_group ["x"] (name_sx "t") ["t"]); [discriminate|left; eexists; eauto|].
      exact (wv_tail ["x"]).
    + split.
      * intros a gs H. vm_compute in H.
        destruct H as [[= <- <-]|[[= <- <-]|[]]];
          (split; [apply parse_name_Ok; reflexivity|
                   repeat constructor; apply parse_type_Ok; reflexivity]).
      * intros H. specialize (H "x" ["t"] []). destruct (H (or_introl eq_refl)
          (or_intror (or_introl eq_refl)) "t") as [X _]. apply X. left. reflexivity.
Qed.
