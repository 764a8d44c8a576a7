(** Properties C25 and C26: printed constants and types. *)
From Coq Require Import String List Bool Permutation Relations.
From Verif Require Import Py Names Logic Validation Core Lexer Show Parser Spec_Parse Spec_Print Spec_Core.
From Verif Require Import Py_facts Names_facts Print_facts Text_facts Types_facts.
Import ListNotations.
Open Scope string_scope.
Open Scope list_scope.

(** * C25 typed constants: printing and parsing is the identity *)

(** A set of constants in any iteration order [cs], printed as a :constants or :objects section:
    the text is that section, and parsing its list gives the same dictionary from names to types,
    up to the order of its entries. *)
Theorem C25_roundtrip : forall kw cs, In kw [":constants"; ":objects"] ->
  cs <> [] -> NoDup (map fst cs) ->
  (forall n g, In (n, g) cs -> legal_name n /\ (forall t, g = Some t -> legal_type t)) ->
  exists l d, read_text (print_constants ("(" +++ kw) cs) = Some [section_sx kw l]
    /\ typed_list_name l = Ok d /\ Permutation d cs.
Proof.
  intros kw cs K N ND H.
  assert (F : Forall const_ok cs).
  { apply Forall_forall. intros [n g] Hi. destruct (H n g Hi) as [H1 H2]. split; auto. destruct g; cbn; auto. }
  destruct (parse_constants cs ND F) as (d & D & P).
  eexists. exists d. split; [|eauto]. apply rx_read. apply rx_constants; auto.
  destruct K as [<-|[<-|[]]]; (split; [vm_compute; intuition|reflexivity]).
Qed.
Print Assumptions C25_roundtrip.

(** The transformers of the two sections rebuild the constants themselves. *)
Theorem C25_sections : forall kw cs, In kw [":constants"; ":objects"] ->
  cs <> [] -> NoDup (map fst cs) ->
  (forall n g, In (n, g) cs -> legal_name n /\ (forall t, g = Some t -> legal_type t)) ->
  exists l cs', read_text (print_constants ("(" +++ kw) cs) = Some [section_sx kw l]
    /\ Permutation cs' cs
    /\ (forall st, snd (constants_section l st) = Ok cs')
    /\ objects_section l = Ok (map (fun c => (fst c, c)) cs').
Proof.
  intros kw cs K N ND H.
  destruct (C25_roundtrip kw cs K N ND H) as (l & d & R & D & P).
  exists l, d. split; auto. split; auto.
  assert (C : constants_by_name d = Ok (map (fun c => (fst c, c)) d)).
  { apply constants_by_name_id.
    - eapply Permutation_NoDup; [|exact ND]. symmetry. now apply Permutation_map.
    - apply Forall_forall. intros [n g] Hi. apply (Permutation_in _ P) in Hi. destruct (H n g Hi) as [H1 H2].
      split; auto. destruct g; cbn; auto. }
  split.
  - intros st. unfold constants_section, bindM, ret, modify. rewrite D, C. cbn. rewrite map_map.
    cbn. now rewrite map_id.
  - unfold objects_section. rewrite D. exact C.
Qed.
Print Assumptions C25_sections.

(** no constants, no section *)
Theorem C25_empty : forall p, print_constants p [] = "".
Proof. reflexivity. Qed.
Print Assumptions C25_empty.

Definition ex_constants : list const :=
  [("b", Some "block"); ("x", None); ("a", Some "block"); ("r", Some "object"); ("m", None)].
Example C25_ex :
  NoDup (map fst ex_constants)
  /\ (forall n g, In (n, g) ex_constants -> legal_name n /\ (forall t, g = Some t -> legal_type t))
  /\ print_constants "(:constants" ex_constants = "(:constants a b - block r - object m x)" +++ nl.
Proof.
  split; [|split; [|reflexivity]].
  - repeat constructor; cbn; intuition discriminate.
  - intros n g Hi. cbn in Hi. split.
    + apply parse_name_Ok. repeat destruct Hi as [Hi|Hi]; try inversion Hi; subst; reflexivity.
    + intros t ->. apply parse_type_Ok. repeat destruct Hi as [Hi|Hi]; try inversion Hi; subst; reflexivity.
Qed.

(** * C26 the :types section *)

(** For a dictionary of types (unique keys) without cycles, printing does not fail; the section
    is a list of lines in which every type stands exactly once, in the line of its supertype (of
    "object" if it has none), after a line that lists that supertype. *)
Theorem C26_lines : forall d, NoDup (map fst d) -> no_type_cycle d -> d <> [] ->
  exists s lines, print_types_with_parents d = Ok s /\ types_text s lines
    /\ (forall t o, In (t, o) d -> t <> "object" -> listed_once lines t (listed_parent o))
    /\ (forall l t, In l lines -> In t (tl_types l) ->
          (exists o, In (t, o) d) \/ exists c, In (c, Some t) d).
Proof. intros d N A E. destruct (types_lines d N A E) as (s & l & H1 & H2 & H3 & H4 & _). exists s, l. auto. Qed.
Print Assumptions C26_lines.

(** Every domain that can be constructed can be printed. *)
Theorem C26_domain : forall d, domain_built d -> exists s, show_domain d = Ok s.
Proof. exact show_domain_total. Qed.
Print Assumptions C26_domain.

Definition ex_types : types_dict :=
  [("truck", Some "vehicle"); ("vehicle", Some "thing"); ("place", None); ("thing", Some "object");
   ("city", Some "place"); ("car", Some "vehicle"); ("ghost", Some "undeclared")].
Example C26_ex :
  NoDup (map fst ex_types) /\ no_type_cycle ex_types /\ ex_types <> []
  /\ print_types_with_parents ex_types
     = Ok ("(:types" +++ nl +++ "    place thing undeclared - object" +++ nl
           +++ "    city - place" +++ nl +++ "    vehicle - thing" +++ nl
           +++ "    ghost - undeclared" +++ nl +++ "    car truck - vehicle" +++ nl +++ ")" +++ nl).
Proof.
  split; [|split; [|split; [discriminate|reflexivity]]].
  - repeat constructor; cbn; intuition discriminate.
  - assert (R2 : forall p t, clos_trans _ (parent_of ex_types) p t ->
      (match p with "object" => 0 | "thing" => 1 | "vehicle" => 2 | "place" => 1 | "undeclared" => 1 | _ => 9 end
       < match t with "object" => 0 | "thing" => 1 | "vehicle" => 2 | "place" => 1 | "undeclared" => 1 | _ => 9 end)%nat).
    { induction 1 as [p t H|]; [|eapply PeanoNat.Nat.lt_trans; eauto].
      cbn in H. repeat destruct H as [H|H]; try inversion H; subst; cbn; auto with arith. }
    intros t C. apply R2 in C. now apply PeanoNat.Nat.lt_irrefl in C.
Qed.

(** With a cycle the formatter raises ValueError; the constructors do not let one through. *)
Example C26_cycle : print_types_with_parents [("a", Some "b"); ("b", Some "a")] = Err ValueError.
Proof. reflexivity. Qed.
