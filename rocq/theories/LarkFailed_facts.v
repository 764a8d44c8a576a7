(** The tables of the three parsers pass the check of LarkFinish_facts.v: an exception that a callback
    raises is that of a tree that begins with the words read so far. *)
From Coq Require Import String Ascii List Bool PArith FMapPositive Arith Lia.
From Verif Require Import Py Names Lexer Spec_Grammar Lark LarkTables LarkCert LarkContext Spec_Lark Py_facts LarkLR_facts LarkSound_facts LarkCheck_facts LarkFinish_facts.
Import ListNotations.
Open Scope string_scope.
Open Scope list_scope.

Definition domain_fills : list (nt * tokens) := Eval vm_compute in samples_of domain_samples [].
Definition problem_fills : list (nt * tokens) := Eval vm_compute in samples_of problem_samples [].
Definition plan_fills : list (nt * tokens) := Eval vm_compute in samples_of plan_samples [].
Lemma no_fills : good [].
Proof. intros A w []. Qed.
Lemma domain_fills_good : good domain_fills.
Proof. replace domain_fills with (samples_of domain_samples []) by (vm_compute; reflexivity). apply samples_ok, no_fills. Qed.
Lemma problem_fills_good : good problem_fills.
Proof. replace problem_fills with (samples_of problem_samples []) by (vm_compute; reflexivity). apply samples_ok, no_fills. Qed.
Lemma plan_fills_good : good plan_fills.
Proof. replace plan_fills with (samples_of plan_samples []) by (vm_compute; reflexivity). apply samples_ok, no_fills. Qed.
Lemma domain_finishes : check_finish domain_table (map_of 1 domain_follow) (map_of 1 domain_past) "domain" (map_of 1 domain_before) (map_of 1 domain_context) domain_fills = true.
Proof. vm_compute. reflexivity. Qed.
Lemma problem_finishes : check_finish problem_table (map_of 1 problem_follow) (map_of 1 problem_past) "problem" (map_of 1 problem_before) (map_of 1 problem_context) problem_fills = true.
Proof. vm_compute. reflexivity. Qed.
Lemma plan_finishes : check_finish plan_table (map_of 1 plan_follow) (map_of 1 plan_past) "plan" (map_of 1 plan_before) (map_of 1 plan_context) plan_fills = true.
Proof. vm_compute. reflexivity. Qed.

Section Parsers.
  Context {V St : Type}.
  Variable leaf : string -> V.
  Variable reduce : nt -> list el -> list V -> St -> St * res V.
  Variables (start : string) (tbl : table).
  Hypothesis P : parser start tbl.
  Lemma words_failed ws st0 st' e i : returns tbl lex_words leaf reduce (begin ws st0) (st', Err e, i) ->
    e = LarkSyntaxError \/
    exists T w more l, D word_at (BN (Rule start)) T (w ++ more) the_end /\ evalT leaf reduce T st0 = (st', Err e) /\ ws = map snd w ++ l ++ i /\ length l <= 1.
  Proof.
    destruct P.
    - destruct domain_checks as (_ & C2 & _ & C4). exact (failed leaf reduce _ _ _ _ _ _ _ _ _ C2 C4 domain_finishes domain_fills_good classify_ok _ _ _ _ _).
    - destruct problem_checks as (_ & C2 & _ & C4). exact (failed leaf reduce _ _ _ _ _ _ _ _ _ C2 C4 problem_finishes problem_fills_good classify_ok _ _ _ _ _).
    - destruct plan_checks as (_ & C2 & _ & C4). exact (failed leaf reduce _ _ _ _ _ _ _ _ _ C2 C4 plan_finishes plan_fills_good classify_ok _ _ _ _ _).
  Qed.
End Parsers.
