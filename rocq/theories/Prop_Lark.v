(** C71: what the parser that Lark generates from grammar.lark reads.

    The theorems hold for any callbacks [callback], and for any type of values with a value [leaf w]
    for each word, a value [none] and lists [splice l] for repetitions. *)
From Coq Require Import String Ascii List Bool PArith.
From Verif Require Import Py Spec_Grammar Lark LarkTables Spec_Lark LarkCheck_facts LarkMain_facts LarkStop_facts.
From Verif Require Words_facts.
Import ListNotations.
Open Scope string_scope.
Open Scope list_scope.

Section Parsers.
  Context {V St : Type}.
  Variables (leaf : string -> V) (none : V) (splice : list V -> V) (spliced : V -> list V).
  Variable callback : string -> list V -> St -> St * res V.
  (** the parser, started with the attributes [st] of the transformer on the text [s], ends with the
      attributes [st'] and the result [r] after reading the words [ws] *)
  Definition parses (tbl : table) (s : string) (st : St) (st' : St) (r : res V) (ws : list string) : Prop :=
    exists s', returns tbl lex_text leaf (build none splice spliced callback) (begin (s, []) st) (st', r, (s', rev ws)).
  (** what a tree is worth *)
  Definition worth (p : ptree) (st : St) : St * res V := visit leaf none (call callback) p st.
End Parsers.

(** the parser always ends, with one result *)
Theorem C71_every_text_gets_one_answer : forall {V St} leaf none splice spliced callback start tbl s (st : St), parser start tbl ->
  exists st' (r : res V) ws, parses leaf none splice spliced callback tbl s st st' r ws /\
  forall st1 r1 ws1, parses leaf none splice spliced callback tbl s st st1 r1 ws1 -> st1 = st' /\ r1 = r /\ ws1 = ws.
Proof.
  intros V St leaf none splice spliced callback start tbl s st P.
  destruct (text_stops leaf (build none splice spliced callback) start tbl s st P) as [[[st' r] [s' log]] R].
  exists st', r, (rev log). split; [exists s'; now rewrite rev_involutive|].
  intros st1 r1 ws1 [s1 R1]. pose proof (returns_det _ _ _ _ _ _ _ R R1) as E. inversion E; subst. now rewrite rev_involutive.
Qed.
Print Assumptions C71_every_text_gets_one_answer.

(** an accepted text has a tree, and the result is what the tree is worth *)
Theorem C71_an_accepted_text_has_a_tree : forall {V St} leaf none splice spliced callback start tbl s (st st' : St) (v : V) ws,
  parser start tbl -> (forall l, spliced (splice l) = l) ->
  parses leaf none splice spliced callback tbl s st st' (Ok v) ws ->
  strung ws s /\
  exists p w, tree word_at (N start) [p] w the_end /\ map snd w = ws /\ worth leaf none callback p st = (st', Ok v).
Proof.
  intros V St leaf none splice spliced callback start tbl s st st' v ws P SP [s' R].
  destruct (text_sound leaf none splice spliced SP callback start tbl P s st st' v s' (rev ws) R) as [A B]. rewrite rev_involutive in *. auto.
Qed.
Print Assumptions C71_an_accepted_text_has_a_tree.

(** a tree is a derivation in the grammar of the file, and a list of words has at most one *)
Theorem C71_trees_are_derivations : forall n p w nx, tree word_at (N n) [p] w nx -> Spec_Grammar.derives lexeme rules (N (base n)) (map snd w).
Proof. intros n p w nx H. exact (tree_derives _ _ _ _ H). Qed.
Print Assumptions C71_trees_are_derivations.
Theorem C71_words_have_one_tree : forall start tbl p p' w w', parser start tbl ->
  tree word_at (N start) [p] w the_end -> tree word_at (N start) [p'] w' the_end -> map snd w = map snd w' -> p = p'.
Proof. intros start tbl p p' w w' P. exact (one_ptree start tbl P p p' w w'). Qed.
Print Assumptions C71_words_have_one_tree.

(** the text of a tree gets what the tree is worth: the value, or the exception of a callback; the
    words read are those of the tree, all of them if a value is returned *)
Theorem C71_the_text_of_a_tree_is_read : forall {V St} leaf none splice spliced callback start tbl s (st st' : St) (r : res V) p w,
  parser start tbl -> (forall l, spliced (splice l) = l) ->
  tree word_at (N start) [p] w the_end -> spelled (map snd w) s ->
  worth leaf none callback p st = (st', r) -> r <> Err LarkSyntaxError ->
  exists ws rest, parses leaf none splice spliced callback tbl s st st' r ws /\ map snd w = ws ++ rest /\ (forall v, r = Ok v -> rest = []).
Proof.
  intros V St leaf none splice spliced callback start tbl s st st' r p w P SP T S E NE.
  destruct (text_complete leaf none splice spliced SP callback start tbl P p w s st st' r T S E NE) as (s' & log & rest & W & O & R).
  exists (rev log), rest. split; [exists s'; now rewrite rev_involutive|auto].
Qed.
Print Assumptions C71_the_text_of_a_tree_is_read.

(** an exception that is not a syntax error is that of a tree: the words read so far, or all of them
    but the last, are the first words of a tree, whose callbacks raise it; and the words read are the
    beginning of the text *)
Theorem C71_an_exception_is_that_of_a_tree : forall {V St} leaf none splice spliced callback start tbl s (st st' : St) e ws,
  parser start tbl -> (forall l, spliced (splice l) = l) ->
  parses leaf none splice spliced callback tbl s st st' (@Err V e) ws -> e <> LarkSyntaxError ->
  (exists a b, s = (a ++ b)%string /\ strung ws a) /\
  exists p w more l, tree word_at (N start) [p] (w ++ more) the_end /\ ws = map snd w ++ l /\ length l <= 1 /\ worth leaf none callback p st = (st', Err e).
Proof.
  intros V St leaf none splice spliced callback start tbl s st st' e ws P SP [s' R] NE. split.
  - destruct R as [n R]. destruct (begun leaf _ tbl n _ _ _ _ _ R) as (used & b & L & E & X). cbn [c_input begin fst snd] in L, E. rewrite app_nil_r in L.
    apply (f_equal (@rev _)) in L. rewrite !rev_involutive in L. subst used. eauto.
  - destruct (text_failed leaf none splice spliced SP callback start tbl P s st st' e s' (rev ws) R NE) as (p & w & more & l & T & E & LL & W). rewrite rev_involutive in E. exists p, w, more, l. auto.
Qed.
Print Assumptions C71_an_exception_is_that_of_a_tree.

(** a text without a tree gets an exception *)
Theorem C71_other_texts_raise_an_exception : forall {V St} leaf none splice spliced callback start tbl s (st : St),
  parser start tbl -> (forall l, spliced (splice l) = l) ->
  (forall p w, tree word_at (N start) [p] w the_end -> ~ strung (map snd w) s) ->
  exists st' e ws, parses leaf none splice spliced callback tbl s st st' (@Err V e) ws.
Proof.
  intros V St leaf none splice spliced callback start tbl s st P SP NO.
  destruct (C71_every_text_gets_one_answer leaf none splice spliced callback start tbl s st P) as (st' & [v|e] & ws & R & _); [|eauto].
  exfalso. destruct (C71_an_accepted_text_has_a_tree _ _ _ _ _ _ _ _ _ _ _ _ P SP R) as (A & p & w & T & E & _). apply (NO p w T). now rewrite E.
Qed.
Print Assumptions C71_other_texts_raise_an_exception.

(** * Examples: the callbacks that build the tree *)
Definition build_node (n : string) (cs : list ptree) (st : unit) : unit * res ptree := (st, Ok (PNode n cs)).
Definition listed (l : list ptree) : ptree := PNode "" l.
Definition unlisted (t : ptree) : list ptree := match t with PNode _ l => l | _ => [] end.
Definition read_tree (tbl : table) (s : string) : option (res ptree * list string) :=
  match run tbl lex_text PLeaf (build PNone listed unlisted build_node) 1000 (begin (s, []) tt) with
  | Some (_, r, (_, log)) => Some (r, rev log)
  | None => None
  end.
Lemma read_parses tbl s r ws : read_tree tbl s = Some (r, ws) -> parses PLeaf PNone listed unlisted build_node tbl s tt tt r ws.
Proof.
  unfold read_tree, parses, returns. intros H.
  destruct (run tbl lex_text PLeaf (build PNone listed unlisted build_node) 1000 (begin (s, []) tt)) as [[[[] r'] [s' log]]|] eqn:E; [|discriminate].
  inversion H; subst. exists s', 1000. now rewrite rev_involutive.
Qed.
Example a_text : string := "(define (domain d) (:predicates (p ?x - t ?y)) (:action a :parameters () :effect (not (p c ?y))))".
Example the_tree : ptree :=
  PNode "domain"
    [PLeaf "("; PLeaf "define"; PNode "domain_def" [PLeaf "("; PLeaf "domain"; PLeaf "d"; PLeaf ")"]; PNone; PNone; PNone;
     PNode "predicates"
       [PLeaf "("; PLeaf ":predicates";
        PNode "atomic_formula_skeleton"
          [PLeaf "("; PLeaf "p";
           PNode "typed_list_variable"
             [PLeaf "x"; PLeaf "-"; PNode "type_def" [PLeaf "t"]; PLeaf "y"];
           PLeaf ")"];
        PLeaf ")"];
     PNone;
     PNode "action_def"
       [PLeaf "("; PLeaf ":action"; PLeaf "a"; PLeaf ":parameters";
        PNode "action_parameters" [PLeaf "("; PNode "typed_list_variable" []; PLeaf ")"];
        PNode "action_body_def"
          [PNone; PNone; PLeaf ":effect";
           PNode "emptyor_effect"
             [PNode "effect"
                [PNode "c_effect"
                   [PNode "p_effect"
                      [PLeaf "("; PLeaf "not";
                       PNode "atomic_formula_term" [PLeaf "("; PLeaf "p"; PNode "constant" [PLeaf "c"]; PLeaf "y"; PLeaf ")"];
                       PLeaf ")"]]]]];
        PLeaf ")"];
     PLeaf ")"].
Example the_tree_is_built :
  match read_tree domain_table a_text with Some (Ok t, ws) => t = the_tree /\ length ws = 36 | _ => False end.
Proof. vm_compute. auto. Qed.
(** words may stick together where no other word can be meant *)
Example words_may_touch :
  match read_tree domain_table "(define(domaind)(:requirements:strips:typing))" with Some (Ok _, ws) => ws = ["("; "define"; "("; "domain"; "d"; ")"; "("; ":requirements"; ":strips"; ":typing"; ")"; ")"] | _ => False end.
Proof. vm_compute. reflexivity. Qed.
(** a type is not followed by the name "object" *)
Example not_read :
  match read_tree domain_table "(define (domain d) (:constants a - t object - u))" with Some (Err LarkSyntaxError, _) => True | _ => False end
  /\ Spec_Grammar.derives lexeme rules (N "typed_list_name") ["a"; "-"; "t"; "object"; "-"; "u"].
Proof.
  split; [vm_compute; exact Logic.I|].
  assert (NM : forall w, is_name w = true -> Spec_Grammar.derives lexeme rules (T "NAME") [w]) by (intros w H; apply D_T, lexeme_cases; auto).
  assert (SEP : Spec_Grammar.derives lexeme rules (T "TYPE_SEP") ["-"]) by (apply D_T, lexeme_cases; auto).
  assert (GR : forall w t, is_name w = true -> is_name t = true -> Spec_Grammar.derives lexeme rules (Seq [Plus (T "NAME"); T "TYPE_SEP"; N "primitive_type"]) [w; "-"; t]).
  { intros w t W T. apply (D_Seq_cons _ _ _ _ [w] ["-"; t]); [apply (D_Plus _ _ _ [w] []); [auto|apply D_Star_nil]|].
    apply (D_Seq_cons _ _ _ _ ["-"] [t]); [exact SEP|]. apply (D_Seq_cons _ _ _ _ [t] []); [|apply D_Seq_nil].
    eapply D_N; [apply Words_facts.assoc_In; reflexivity|]. eapply D_Alt; [now left|auto]. }
  eapply D_N; [apply Words_facts.assoc_In; reflexivity|]. eapply D_Alt; [right; now left|].
  apply (D_Seq_cons _ _ _ _ ["a"; "-"; "t"; "object"; "-"; "u"] []); [|apply (D_Seq_cons _ _ _ _ [] []); [apply D_Star_nil|apply D_Seq_nil]].
  apply (D_Plus _ _ _ ["a"; "-"; "t"] ["object"; "-"; "u"]); [now apply GR|]. apply (D_Star_cons _ _ _ ["object"; "-"; "u"] []); [now apply GR|apply D_Star_nil].
Qed.
