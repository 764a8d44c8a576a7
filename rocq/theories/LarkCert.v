(** What is needed to check that the tables of LarkTables.v read exactly the grammar of
    Spec_Lark.v: for each state, the rules that can begin there and what can follow them; what each
    rule can begin with; the symbols that come before a state; the words that are no NAME when they
    come next; a weight for each rule.  Written by tools/lalr_coq.py. *)
From Coq Require Import String List.
From Verif Require Import Spec_Grammar Lark.
Import ListNotations.
Open Scope string_scope.
Open Scope list_scope.

Definition r0 : nt := Rep (N "structure_def").
Definition r1 : nt := Rep (N "gd").
Definition r2 : nt := Rep (N "f_exp").
Definition r3 : nt := Rep (N "term").
Definition r4 : nt := Rep (N "variable").
Definition r5 : nt := Rep (Seq [Plus (N "variable"); T "TYPE_SEP"; N "type_def"]).
Definition r6 : nt := Rep (N "primitive_type").
Definition r7 : nt := Rep (N "c_effect").
Definition r8 : nt := Rep (N "effect").
Definition r9 : nt := Rep (N "p_effect@p").
Definition r10 : nt := Rep (N "atomic_function_skeleton").
Definition r11 : nt := Rep (Seq [Plus (N "atomic_function_skeleton"); T "TYPE_SEP"; N "f_type_def"]).
Definition r12 : nt := Rep (N "atomic_formula_skeleton").
Definition r13 : nt := Rep (T "NAME").
Definition r14 : nt := Rep (Seq [Plus (T "NAME"); T "TYPE_SEP"; N "primitive_type"]).
Definition r15 : nt := Rep (N "require_key").
Definition r16 : nt := Rep (N "p_effect").
Definition r17 : nt := Rep (N "metric_f_exp").
Definition r18 : nt := Rep (N "init_el").
Definition r19 : nt := Rep (N "ground_action").
Definition f0 : list string := ["$END"].
Definition f1 : list string := ["LPAR"; "RPAR"].
Definition f2 : list string := ["LPAR"].
Definition f3 : list string := ["RPAR"].
Definition f4 : list string := ["LPAR"; "NAME"; "NUMBER"].
Definition f5 : list string := ["LPAR"; "NAME"; "NUMBER"; "RPAR"].
Definition f6 : list string := ["?"; "NAME"; "RPAR"].
Definition f7 : list string := ["?"; "NAME"].
Definition f8 : list string := ["?"; "RPAR"; "TYPE_SEP"].
Definition f9 : list string := ["?"; "RPAR"].
Definition f10 : list string := ["NAME@type"; "OBJECT"; "RPAR"].
Definition f11 : list string := ["EFFECT"; "PRECONDITION"; "RPAR"].
Definition f12 : list string := ["EFFECT"; "RPAR"].
Definition f13 : list string := ["LPAR"; "NAME"].
Definition f14 : list string := ["LPAR"; "RPAR"; "TYPE_SEP"].
Definition f15 : list string := ["NAME"; "RPAR"; "TYPE_SEP"].
Definition f16 : list string := ["NAME"; "RPAR"].
Definition f17 : list string := ["ACTION_COSTS"; "ADL"; "CONDITIONAL_EFFECTS"; "DERIVED_PREDICATES"; "DIS_PRECONDITION"; "EQUALITY"; "EXISTENTIAL_PRECONDITIONS"; "FLUENTS"; "NEG_PRECONDITION"; "NON_DETERMINISTIC"; "NUMERIC_FLUENTS"; "QUANTIFIED_PRECONDITIONS"; "RPAR"; "STRIPS"; "TYPING"; "UNIVERSAL_PRECONDITIONS"].
Definition f18 : list string := ["ACTION_COSTS"; "ADL"; "CONDITIONAL_EFFECTS"; "DERIVED_PREDICATES"; "DIS_PRECONDITION"; "EQUALITY"; "EXISTENTIAL_PRECONDITIONS"; "FLUENTS"; "NEG_PRECONDITION"; "NON_DETERMINISTIC"; "NUMERIC_FLUENTS"; "QUANTIFIED_PRECONDITIONS"; "STRIPS"; "TYPING"; "UNIVERSAL_PRECONDITIONS"].
Definition f19 : list string := ["NAME"].
Definition f20 : list string := ["NAME@type"; "OBJECT"].
Definition f21 : list string := ["?"].
Definition f22 : list string := ["TYPE_NUMBER"].
Definition f23 : list string := ["EFFECT"; "PRECONDITION"].
Definition f24 : list string := ["EQUAL_OP"; "GREATER_EQUAL_OP"; "GREATER_OP"; "LESSER_EQUAL_OP"; "LESSER_OP"].
Definition f25 : list string := ["LPAR"; "NAME@type"; "OBJECT"].
Definition f26 : list string := ["NAME@gd"].
Definition f27 : list string := ["NUMBER"].
Definition f28 : list string := ["DIVIDE"].
Definition f29 : list string := ["PLUS"; "TIMES"].
Definition f30 : list string := ["NAME@effect"].
Definition f31 : list string := ["ASSIGN"; "DECREASE"; "INCREASE"; "SCALE_DOWN"; "SCALE_UP"].
Definition f32 : list string := ["NAME@c_effect"].
Definition f33 : list string := ["NAME@cond"].
Definition f34 : list string := ["NAME@p"].
Definition f35 : list string := [].
Definition f36 : list string := ["object"].
Definition f37 : list string := ["and"; "exists"; "forall"; "imply"; "not"; "or"].
Definition f38 : list string := ["and"; "assign"; "decrease"; "forall"; "increase"; "not"; "oneof"; "scale-down"; "scale-up"; "when"].
Definition f39 : list string := ["assign"; "decrease"; "forall"; "increase"; "not"; "oneof"; "scale-down"; "scale-up"; "when"].
Definition f40 : list string := ["and"; "assign"; "decrease"; "increase"; "not"; "scale-down"; "scale-up"].
Definition f41 : list string := ["assign"; "decrease"; "increase"; "not"; "scale-down"; "scale-up"].
Definition f42 : list string := ["MAXIMIZE"; "MINIMIZE"].
Definition f43 : list string := ["NAME@init"].
Definition f44 : list string := ["not"].
Definition f45 : list string := ["$END"; "LPAR"].
Definition domain_follow : list (list (nt * list string)) :=
  [[(Rule "domain", f0)];
   [];
   [];
   [(Rule "domain_def", f1)];
   [(Rule "action_def", f1); (Rule "constants", f1); (Rule "derived_predicates", f1); (Rule "functions", f1); (Rule "predicates", f1); (Rule "requirements", f1); (Rule "structure_def", f1); (Rule "types", f1); (r0, f1)];
   [];
   [];
   [(Rule "action_def", f1); (Rule "constants", f1); (Rule "derived_predicates", f1); (Rule "functions", f1); (Rule "predicates", f1); (Rule "structure_def", f1); (Rule "types", f1); (r0, f1)];
   [(Rule "action_def", f1); (Rule "derived_predicates", f1); (Rule "functions", f1); (Rule "predicates", f1); (Rule "structure_def", f1); (r0, f1)];
   [(Rule "action_def", f1); (Rule "derived_predicates", f1); (Rule "structure_def", f1); (r0, f1)];
   [];
   [(Rule "action_def", f1); (Rule "constants", f1); (Rule "derived_predicates", f1); (Rule "functions", f1); (Rule "predicates", f1); (Rule "structure_def", f1); (r0, f1)];
   [(Rule "action_def", f1); (Rule "derived_predicates", f1); (Rule "structure_def", f1)];
   [];
   [(Rule "action_def", f1); (Rule "derived_predicates", f1); (Rule "functions", f1); (Rule "structure_def", f1); (r0, f1)];
   [];
   [];
   [];
   [(Rule "typed_list_name", f3); (r13, f15); (r14, f16)];
   [(Rule "atomic_function_skeleton", f14); (Rule "f_typed_list_atomic_function_skeleton", f3); (r10, f14); (r11, f1)];
   [(Rule "require_key", f17); (r15, f17)];
   [(Rule "atomic_formula_skeleton", f1); (r12, f1)];
   [];
   [(Rule "typed_list_name", f3); (r13, f15); (r14, f16)];
   [(Rule "atomic_formula_skeleton", f2)];
   [(Rule "action_def", f1); (Rule "derived_predicates", f1); (Rule "functions", f1); (Rule "predicates", f1); (Rule "structure_def", f1); (r0, f1)];
   [(Rule "action_def", f1); (Rule "constants", f1); (Rule "derived_predicates", f1); (Rule "functions", f1); (Rule "predicates", f1); (Rule "structure_def", f1); (r0, f1)];
   [];
   [(Rule "action_def", f1); (Rule "derived_predicates", f1); (Rule "functions", f1); (Rule "structure_def", f1); (r0, f1)];
   [(Rule "action_def", f1); (Rule "derived_predicates", f1); (Rule "structure_def", f1); (r0, f1)];
   [(Rule "action_def", f1); (Rule "derived_predicates", f1); (Rule "structure_def", f1)];
   [];
   [(Rule "action_def", f1); (Rule "derived_predicates", f1); (Rule "functions", f1); (Rule "structure_def", f1); (r0, f1)];
   [];
   [];
   [(Rule "action_def", f1); (Rule "derived_predicates", f1); (Rule "structure_def", f1); (r0, f1)];
   [(Rule "action_def", f1); (Rule "derived_predicates", f1); (Rule "structure_def", f1)];
   [(Rule "action_def", f1); (Rule "derived_predicates", f1); (Rule "structure_def", f1)];
   [];
   [];
   [(Rule "action_def", f1); (Rule "derived_predicates", f1); (Rule "structure_def", f1); (r0, f1)];
   [(Rule "action_def", f1); (Rule "derived_predicates", f1); (Rule "functions", f1); (Rule "predicates", f1); (Rule "structure_def", f1); (r0, f1)];
   [(Rule "action_def", f1); (Rule "derived_predicates", f1); (Rule "structure_def", f1)];
   [];
   [];
   [(Rule "action_def", f1); (Rule "derived_predicates", f1); (Rule "functions", f1); (Rule "structure_def", f1); (r0, f1)];
   [];
   [];
   [(Rule "action_def", f1); (Rule "derived_predicates", f1); (Rule "structure_def", f1); (r0, f1)];
   [];
   [];
   [(Rule "action_def", f1); (Rule "derived_predicates", f1); (Rule "structure_def", f1)];
   [];
   [];
   [(r13, f15)];
   [];
   [];
   [(Rule "atomic_function_skeleton", f14)];
   [(Rule "atomic_function_skeleton", f14); (r10, f14)];
   [];
   [];
   [];
   [];
   [];
   [];
   [];
   [];
   [];
   [];
   [];
   [(Rule "require_key", f17)];
   [];
   [];
   [];
   [];
   [];
   [];
   [];
   [];
   [(Rule "atomic_formula_skeleton", f1)];
   [];
   [];
   [];
   [];
   [(Rule "atomic_formula_term@gd", f3); (Rule "gd", f3)];
   [(Rule "action_def", f1); (Rule "derived_predicates", f1); (Rule "functions", f1); (Rule "structure_def", f1); (r0, f1)];
   [(Rule "action_def", f1); (Rule "derived_predicates", f1); (Rule "structure_def", f1); (r0, f1)];
   [(Rule "action_def", f1); (Rule "derived_predicates", f1); (Rule "structure_def", f1)];
   [];
   [(Rule "action_def", f1); (Rule "derived_predicates", f1); (Rule "functions", f1); (Rule "structure_def", f1); (r0, f1)];
   [(Rule "action_def", f1); (Rule "derived_predicates", f1); (Rule "functions", f1); (Rule "predicates", f1); (Rule "structure_def", f1); (r0, f1)];
   [(Rule "action_def", f1); (Rule "derived_predicates", f1); (Rule "structure_def", f1); (r0, f1)];
   [(Rule "action_def", f1); (Rule "derived_predicates", f1); (Rule "structure_def", f1)];
   [];
   [(Rule "action_def", f1); (Rule "derived_predicates", f1); (Rule "structure_def", f1); (r0, f1)];
   [(Rule "action_def", f1); (Rule "derived_predicates", f1); (Rule "structure_def", f1)];
   [];
   [(Rule "action_def", f1); (Rule "derived_predicates", f1); (Rule "structure_def", f1)];
   [];
   [];
   [(Rule "action_def", f1); (Rule "derived_predicates", f1); (Rule "structure_def", f1)];
   [(Rule "action_def", f1); (Rule "derived_predicates", f1); (Rule "structure_def", f1); (r0, f1)];
   [];
   [(Rule "action_def", f1); (Rule "derived_predicates", f1); (Rule "structure_def", f1)];
   [];
   [];
   [];
   [(Rule "action_def", f1); (Rule "derived_predicates", f1); (Rule "structure_def", f1)];
   [];
   [(Rule "action_def", f1); (Rule "derived_predicates", f1); (Rule "structure_def", f1)];
   [(Rule "action_def", f1); (Rule "derived_predicates", f1); (Rule "structure_def", f1); (r0, f1)];
   [(Rule "action_def", f1); (Rule "derived_predicates", f1); (Rule "functions", f1); (Rule "structure_def", f1); (r0, f1)];
   [];
   [];
   [(Rule "action_def", f1); (Rule "derived_predicates", f1); (Rule "structure_def", f1)];
   [(Rule "action_def", f1); (Rule "derived_predicates", f1); (Rule "structure_def", f1); (r0, f1)];
   [];
   [];
   [(Rule "action_def", f1); (Rule "derived_predicates", f1); (Rule "structure_def", f1)];
   [];
   [];
   [];
   [(Rule "primitive_type", f16)];
   [];
   [];
   [];
   [(Rule "f_type_def", f1)];
   [(Rule "atomic_function_skeleton", f14)];
   [];
   [(Rule "typed_list_variable", f3); (Rule "variable", f8); (r4, f8); (r5, f9)];
   [];
   [];
   [];
   [];
   [(Rule "typed_list_variable", f3); (Rule "variable", f8); (r4, f8); (r5, f9)];
   [(Rule "action_parameters", f11)];
   [];
   [(Rule "binary_comp", f4); (Rule "predicate@gd", f6)];
   [];
   [];
   [(Rule "action_def", f1); (Rule "derived_predicates", f1); (Rule "structure_def", f1)];
   [(Rule "action_def", f1); (Rule "derived_predicates", f1); (Rule "structure_def", f1); (r0, f1)];
   [];
   [(Rule "action_def", f1); (Rule "derived_predicates", f1); (Rule "structure_def", f1)];
   [];
   [];
   [(Rule "action_def", f1); (Rule "derived_predicates", f1); (Rule "structure_def", f1); (r0, f1)];
   [(Rule "action_def", f1); (Rule "derived_predicates", f1); (Rule "structure_def", f1)];
   [];
   [(Rule "action_def", f1); (Rule "derived_predicates", f1); (Rule "functions", f1); (Rule "structure_def", f1); (r0, f1)];
   [(Rule "action_def", f1); (Rule "derived_predicates", f1); (Rule "structure_def", f1)];
   [(Rule "action_def", f1); (Rule "derived_predicates", f1); (Rule "structure_def", f1); (r0, f1)];
   [];
   [];
   [(Rule "action_def", f1); (Rule "derived_predicates", f1); (Rule "structure_def", f1)];
   [];
   [(Rule "action_def", f1); (Rule "derived_predicates", f1); (Rule "structure_def", f1)];
   [];
   [];
   [];
   [];
   [];
   [(Rule "action_def", f1); (Rule "derived_predicates", f1); (Rule "structure_def", f1)];
   [];
   [];
   [];
   [(Rule "action_def", f1); (Rule "derived_predicates", f1); (Rule "structure_def", f1)];
   [];
   [(Rule "action_def", f1); (Rule "derived_predicates", f1); (Rule "structure_def", f1); (r0, f1)];
   [(Rule "action_def", f1); (Rule "derived_predicates", f1); (Rule "structure_def", f1)];
   [];
   [];
   [];
   [(Rule "action_def", f1); (Rule "derived_predicates", f1); (Rule "structure_def", f1)];
   [];
   [];
   [];
   [];
   [(Rule "primitive_type", f16)];
   [];
   [];
   [(Rule "f_type_def", f1)];
   [];
   [(Rule "variable", f8)];
   [(Rule "variable", f8); (r4, f8)];
   [];
   [];
   [];
   [(Rule "typed_list_variable", f3); (Rule "variable", f8); (r4, f8); (r5, f9)];
   [(Rule "action_body_def", f3)];
   [];
   [(Rule "atomic_formula_term@gd", f3); (Rule "gd", f3)];
   [(Rule "constant", f6); (Rule "term", f6); (Rule "variable", f6); (r3, f6)];
   [(Rule "constant", f7); (Rule "term", f7); (Rule "variable", f7)];
   [(Rule "atomic_formula_term@gd", f1); (Rule "gd", f1); (r1, f1)];
   [(Rule "atomic_formula_term@gd", f2); (Rule "gd", f2)];
   [(Rule "atomic_formula_term@gd", f1); (Rule "gd", f1); (r1, f1)];
   [];
   [];
   [];
   [];
   [];
   [(Rule "f_exp", f4); (Rule "f_head", f4); (Rule "num_literal", f4)];
   [];
   [];
   [];
   [(Rule "action_def", f1); (Rule "derived_predicates", f1); (Rule "structure_def", f1)];
   [];
   [];
   [];
   [(Rule "action_def", f1); (Rule "derived_predicates", f1); (Rule "structure_def", f1)];
   [];
   [(Rule "action_def", f1); (Rule "derived_predicates", f1); (Rule "structure_def", f1); (r0, f1)];
   [(Rule "action_def", f1); (Rule "derived_predicates", f1); (Rule "structure_def", f1)];
   [];
   [];
   [(Rule "action_def", f1); (Rule "derived_predicates", f1); (Rule "structure_def", f1)];
   [];
   [];
   [];
   [];
   [];
   [(Rule "action_def", f1); (Rule "derived_predicates", f1); (Rule "structure_def", f1)];
   [];
   [];
   [];
   [];
   [];
   [];
   [];
   [(Rule "primitive_type", f9); (Rule "type_def", f9)];
   [(Rule "variable", f8)];
   [];
   [];
   [];
   [];
   [(Rule "atomic_formula_term@gd", f12); (Rule "emptyor_pregd", f12); (Rule "gd", f12)];
   [(Rule "atomic_formula_term@effect", f3); (Rule "c_effect@effect", f3); (Rule "effect", f3); (Rule "emptyor_effect", f3); (Rule "num_effect", f3); (Rule "p_effect@effect", f3)];
   [(Rule "typed_list_variable", f3); (Rule "variable", f8); (r4, f8); (r5, f9)];
   [];
   [(Rule "constant", f6); (Rule "term", f6); (Rule "variable", f6)];
   [];
   [];
   [];
   [];
   [];
   [(Rule "constant", f3); (Rule "term", f3); (Rule "variable", f3)];
   [];
   [(Rule "atomic_formula_term@gd", f1); (Rule "gd", f1)];
   [];
   [(Rule "atomic_formula_term@gd", f3); (Rule "gd", f3)];
   [(Rule "atomic_formula_term@gd", f1); (Rule "gd", f1)];
   [];
   [(Rule "binary_op", f4); (Rule "multi_op", f4)];
   [];
   [];
   [(Rule "f_exp", f3); (Rule "f_head", f3); (Rule "num_literal", f3)];
   [];
   [];
   [(Rule "typed_list_variable", f3); (Rule "variable", f8); (r4, f8); (r5, f9)];
   [];
   [];
   [(Rule "action_def", f1); (Rule "derived_predicates", f1); (Rule "structure_def", f1)];
   [];
   [];
   [];
   [];
   [];
   [];
   [];
   [(Rule "primitive_type", f9); (Rule "type_def", f9)];
   [];
   [];
   [(Rule "binary_comp", f4); (Rule "predicate@gd", f6)];
   [];
   [];
   [];
   [(Rule "assign_op", f13); (Rule "predicate@effect", f6)];
   [];
   [];
   [];
   [];
   [];
   [];
   [];
   [];
   [];
   [];
   [];
   [];
   [];
   [];
   [(Rule "f_exp", f4); (Rule "f_head", f4); (Rule "num_literal", f4)];
   [(Rule "f_exp", f3); (Rule "f_head", f3); (Rule "num_literal", f3)];
   [(Rule "constant", f6); (Rule "term", f6); (Rule "variable", f6); (r3, f6)];
   [];
   [];
   [];
   [(Rule "f_exp", f4); (Rule "f_head", f4); (Rule "num_literal", f4)];
   [];
   [];
   [];
   [(Rule "primitive_type", f10); (r6, f10)];
   [];
   [];
   [(Rule "atomic_formula_term@effect", f3); (Rule "c_effect@effect", f3); (Rule "effect", f3); (Rule "emptyor_effect", f3); (Rule "num_effect", f3); (Rule "p_effect@effect", f3)];
   [(Rule "f_head", f4)];
   [(Rule "atomic_formula_term", f3)];
   [(Rule "atomic_formula_term@c_effect", f1); (Rule "c_effect", f1); (Rule "num_effect", f1); (Rule "p_effect@c_effect", f1); (r7, f1)];
   [(Rule "constant", f7); (Rule "term", f7); (Rule "variable", f7)];
   [];
   [(Rule "atomic_formula_term@gd", f2); (Rule "gd", f2)];
   [];
   [];
   [(Rule "atomic_formula_term@effect", f1); (Rule "c_effect@effect", f1); (Rule "effect", f1); (Rule "num_effect", f1); (Rule "p_effect@effect", f1); (r8, f1)];
   [];
   [];
   [];
   [];
   [(Rule "atomic_formula_term@gd", f3); (Rule "gd", f3)];
   [];
   [];
   [(Rule "f_exp", f5); (Rule "f_head", f5); (Rule "num_literal", f5); (r2, f5)];
   [];
   [(Rule "constant", f6); (Rule "term", f6); (Rule "variable", f6)];
   [];
   [(Rule "f_exp", f3); (Rule "f_head", f3); (Rule "num_literal", f3)];
   [];
   [(Rule "atomic_formula_term@gd", f3); (Rule "gd", f3)];
   [];
   [(Rule "primitive_type", f10)];
   [];
   [(Rule "f_exp", f3); (Rule "f_head", f3); (Rule "num_literal", f3)];
   [];
   [(Rule "predicate", f6)];
   [];
   [(Rule "assign_op", f13); (Rule "predicate@c_effect", f6)];
   [];
   [(Rule "atomic_formula_term@c_effect", f1); (Rule "c_effect", f1); (Rule "num_effect", f1); (Rule "p_effect@c_effect", f1)];
   [];
   [(Rule "atomic_formula_term@cond", f3); (Rule "cond_effect", f3); (Rule "num_effect", f3); (Rule "p_effect@cond", f3)];
   [(Rule "assign_op", f13); (Rule "predicate@effect", f6)];
   [];
   [(Rule "atomic_formula_term@effect", f1); (Rule "c_effect@effect", f1); (Rule "effect", f1); (Rule "num_effect", f1); (Rule "p_effect@effect", f1)];
   [(Rule "typed_list_variable", f3); (Rule "variable", f8); (r4, f8); (r5, f9)];
   [];
   [];
   [(Rule "f_exp", f5); (Rule "f_head", f5); (Rule "num_literal", f5)];
   [];
   [];
   [];
   [];
   [];
   [];
   [];
   [];
   [];
   [];
   [];
   [(Rule "assign_op", f13); (Rule "predicate@cond", f6)];
   [];
   [];
   [];
   [];
   [];
   [];
   [];
   [];
   [];
   [];
   [(Rule "atomic_formula_term@p", f1); (Rule "num_effect", f1); (Rule "p_effect@p", f1); (r9, f1)];
   [];
   [(Rule "atomic_formula_term@effect", f3); (Rule "c_effect@effect", f3); (Rule "effect", f3); (Rule "num_effect", f3); (Rule "p_effect@effect", f3)];
   [];
   [(Rule "atomic_formula_term@p", f1); (Rule "num_effect", f1); (Rule "p_effect@p", f1)];
   [(Rule "assign_op", f13); (Rule "predicate@p", f6)];
   [];
   [];
   [];
   [];
   []].
Definition domain_first : list (nt * (bool * list string)) :=
  [(Rule "domain", (false, f2));
   (Rule "domain_def", (false, f2));
   (Rule "requirements", (false, f2));
   (Rule "types", (false, f2));
   (Rule "constants", (false, f2));
   (Rule "predicates", (false, f2));
   (Rule "functions", (false, f2));
   (r0, (false, f2));
   (r15, (false, f18));
   (Rule "typed_list_name", (true, f19));
   (r12, (false, f2));
   (Rule "f_typed_list_atomic_function_skeleton", (false, f2));
   (Rule "structure_def", (false, f2));
   (Rule "require_key", (false, f18));
   (r13, (false, f19));
   (r14, (false, f19));
   (Rule "atomic_formula_skeleton", (false, f2));
   (r10, (false, f2));
   (r11, (false, f2));
   (Rule "action_def", (false, f2));
   (Rule "derived_predicates", (false, f2));
   (Rule "primitive_type", (false, f20));
   (Rule "typed_list_variable", (true, f21));
   (Rule "atomic_function_skeleton", (false, f2));
   (Rule "f_type_def", (false, f22));
   (Rule "action_parameters", (false, f2));
   (Rule "action_body_def", (true, f23));
   (Rule "gd", (false, f2));
   (r4, (false, f21));
   (r5, (false, f21));
   (Rule "emptyor_pregd", (false, f2));
   (Rule "emptyor_effect", (false, f2));
   (Rule "atomic_formula_term@gd", (false, f2));
   (r1, (false, f2));
   (Rule "binary_comp", (false, f24));
   (Rule "f_exp", (false, f4));
   (Rule "variable", (false, f21));
   (Rule "type_def", (false, f25));
   (Rule "effect", (false, f2));
   (Rule "predicate@gd", (false, f26));
   (r3, (false, f7));
   (Rule "term", (false, f7));
   (Rule "num_literal", (false, f27));
   (Rule "binary_op", (false, f28));
   (Rule "multi_op", (false, f29));
   (r2, (false, f4));
   (Rule "f_head", (false, f13));
   (r6, (false, f20));
   (r7, (false, f2));
   (Rule "c_effect@effect", (false, f2));
   (Rule "constant", (false, f19));
   (Rule "c_effect", (false, f2));
   (Rule "cond_effect", (false, f2));
   (r8, (false, f2));
   (Rule "p_effect@effect", (false, f2));
   (Rule "p_effect@c_effect", (false, f2));
   (r9, (false, f2));
   (Rule "p_effect@cond", (false, f2));
   (Rule "atomic_formula_term", (false, f2));
   (Rule "atomic_formula_term@effect", (false, f2));
   (Rule "num_effect", (false, f2));
   (Rule "atomic_formula_term@c_effect", (false, f2));
   (Rule "p_effect@p", (false, f2));
   (Rule "atomic_formula_term@cond", (false, f2));
   (Rule "predicate", (false, f19));
   (Rule "predicate@effect", (false, f30));
   (Rule "assign_op", (false, f31));
   (Rule "predicate@c_effect", (false, f32));
   (Rule "atomic_formula_term@p", (false, f2));
   (Rule "predicate@cond", (false, f33));
   (Rule "predicate@p", (false, f34))].
Definition domain_past : list (list bsym) :=
  [[];
   [BT "LPAR"];
   [BN (Rule "domain")];
   [BT "DEFINE"; BT "LPAR"];
   [BN (Rule "domain_def"); BT "DEFINE"; BT "LPAR"];
   [BT "LPAR"; BT "DEFINE"; BT "LPAR"];
   [BT "LPAR"; BN (Rule "domain_def"); BT "DEFINE"; BT "LPAR"];
   [BN (Rule "requirements"); BN (Rule "domain_def"); BT "DEFINE"; BT "LPAR"];
   [BN (Rule "constants"); BN (Rule "domain_def"); BT "DEFINE"; BT "LPAR"];
   [BN (Rule "functions"); BN (Rule "domain_def"); BT "DEFINE"; BT "LPAR"];
   [BN (Rule "derived_predicates")];
   [BN (Rule "types"); BN (Rule "domain_def"); BT "DEFINE"; BT "LPAR"];
   [BN (r0); BN (Rule "domain_def"); BT "DEFINE"; BT "LPAR"];
   [BN (Rule "structure_def")];
   [BN (Rule "predicates"); BN (Rule "domain_def"); BT "DEFINE"; BT "LPAR"];
   [BN (Rule "action_def")];
   [BT "RPAR"; BN (Rule "domain_def"); BT "DEFINE"; BT "LPAR"];
   [BT "DOMAIN"; BT "LPAR"; BT "DEFINE"; BT "LPAR"];
   [BT "CONSTANTS"; BT "LPAR"];
   [BT "FUNCTIONS"; BT "LPAR"];
   [BT "REQUIREMENTS"; BT "LPAR"; BN (Rule "domain_def"); BT "DEFINE"; BT "LPAR"];
   [BT "PREDICATES"; BT "LPAR"];
   [BT "ACTION"; BT "LPAR"];
   [BT "TYPES"; BT "LPAR"];
   [BT "DERIVED"; BT "LPAR"];
   [BN (Rule "constants"); BN (Rule "requirements"); BN (Rule "domain_def"); BT "DEFINE"; BT "LPAR"];
   [BN (Rule "types"); BN (Rule "requirements"); BN (Rule "domain_def"); BT "DEFINE"; BT "LPAR"];
   [BT "LPAR"; BN (Rule "requirements"); BN (Rule "domain_def"); BT "DEFINE"; BT "LPAR"];
   [BN (Rule "predicates"); BN (Rule "requirements"); BN (Rule "domain_def"); BT "DEFINE"; BT "LPAR"];
   [BN (Rule "functions"); BN (Rule "requirements"); BN (Rule "domain_def"); BT "DEFINE"; BT "LPAR"];
   [BN (r0); BN (Rule "requirements"); BN (Rule "domain_def"); BT "DEFINE"; BT "LPAR"];
   [BT "RPAR"; BN (Rule "requirements"); BN (Rule "domain_def"); BT "DEFINE"; BT "LPAR"];
   [BN (Rule "predicates"); BN (Rule "constants"); BN (Rule "domain_def"); BT "DEFINE"; BT "LPAR"];
   [BT "RPAR"; BN (Rule "constants"); BN (Rule "domain_def"); BT "DEFINE"; BT "LPAR"];
   [BT "LPAR"; BN (Rule "constants")];
   [BN (Rule "functions"); BN (Rule "constants"); BN (Rule "domain_def"); BT "DEFINE"; BT "LPAR"];
   [BN (r0); BN (Rule "constants"); BN (Rule "domain_def"); BT "DEFINE"; BT "LPAR"];
   [BN (r0); BN (Rule "functions"); BN (Rule "domain_def"); BT "DEFINE"; BT "LPAR"];
   [BT "RPAR"; BN (Rule "functions"); BN (Rule "domain_def"); BT "DEFINE"; BT "LPAR"];
   [BT "LPAR"];
   [BN (Rule "functions"); BN (Rule "types"); BN (Rule "domain_def"); BT "DEFINE"; BT "LPAR"];
   [BN (Rule "constants"); BN (Rule "types"); BN (Rule "domain_def"); BT "DEFINE"; BT "LPAR"];
   [BN (r0); BN (Rule "types"); BN (Rule "domain_def"); BT "DEFINE"; BT "LPAR"];
   [BT "RPAR"; BN (Rule "types"); BN (Rule "domain_def"); BT "DEFINE"; BT "LPAR"];
   [BT "LPAR"; BN (Rule "types")];
   [BN (Rule "predicates"); BN (Rule "types"); BN (Rule "domain_def"); BT "DEFINE"; BT "LPAR"];
   [BN (Rule "structure_def"); BN (r0)];
   [BT "RPAR"; BN (r0); BN (Rule "domain_def"); BT "DEFINE"; BT "LPAR"];
   [BN (Rule "functions"); BN (Rule "predicates"); BN (Rule "domain_def"); BT "DEFINE"; BT "LPAR"];
   [BT "LPAR"; BN (Rule "predicates")];
   [BT "RPAR"; BN (Rule "predicates"); BN (Rule "domain_def"); BT "DEFINE"; BT "LPAR"];
   [BN (r0); BN (Rule "predicates"); BN (Rule "domain_def"); BT "DEFINE"; BT "LPAR"];
   [BT "NAME"; BT "DOMAIN"; BT "LPAR"; BT "DEFINE"; BT "LPAR"];
   [BN (r13)];
   [BN (r14)];
   [BT "NAME"];
   [BN (Rule "typed_list_name"); BT "CONSTANTS"; BT "LPAR"];
   [BN (r10); BT "FUNCTIONS"; BT "LPAR"];
   [BN (r11); BT "FUNCTIONS"; BT "LPAR"];
   [BN (Rule "atomic_function_skeleton")];
   [BN (Rule "f_typed_list_atomic_function_skeleton"); BT "FUNCTIONS"; BT "LPAR"];
   [BT "LPAR"];
   [BT "EXISTENTIAL_PRECONDITIONS"];
   [BT "STRIPS"];
   [BT "EQUALITY"];
   [BT "QUANTIFIED_PRECONDITIONS"];
   [BT "NON_DETERMINISTIC"];
   [BN (Rule "require_key"); BT "REQUIREMENTS"; BT "LPAR"; BN (Rule "domain_def"); BT "DEFINE"; BT "LPAR"];
   [BT "ADL"];
   [BT "NEG_PRECONDITION"];
   [BN (r15); BT "REQUIREMENTS"; BT "LPAR"; BN (Rule "domain_def"); BT "DEFINE"; BT "LPAR"];
   [BT "DERIVED_PREDICATES"];
   [BT "DIS_PRECONDITION"];
   [BT "TYPING"];
   [BT "CONDITIONAL_EFFECTS"];
   [BT "NUMERIC_FLUENTS"];
   [BT "UNIVERSAL_PRECONDITIONS"];
   [BT "ACTION_COSTS"];
   [BT "FLUENTS"];
   [BN (r12); BT "PREDICATES"; BT "LPAR"];
   [BT "LPAR"];
   [BN (Rule "atomic_formula_skeleton"); BT "PREDICATES"; BT "LPAR"];
   [BT "NAME"; BT "ACTION"; BT "LPAR"];
   [BN (Rule "typed_list_name"); BT "TYPES"; BT "LPAR"];
   [BN (Rule "atomic_formula_skeleton"); BT "DERIVED"; BT "LPAR"];
   [BN (Rule "predicates"); BN (Rule "constants"); BN (Rule "requirements"); BN (Rule "domain_def"); BT "DEFINE"; BT "LPAR"];
   [BN (Rule "functions"); BN (Rule "constants"); BN (Rule "requirements"); BN (Rule "domain_def"); BT "DEFINE"; BT "LPAR"];
   [BN (r0); BN (Rule "constants"); BN (Rule "requirements"); BN (Rule "domain_def"); BT "DEFINE"; BT "LPAR"];
   [BT "RPAR"; BN (Rule "constants"); BN (Rule "requirements"); BN (Rule "domain_def"); BT "DEFINE"; BT "LPAR"];
   [BN (Rule "predicates"); BN (Rule "types"); BN (Rule "requirements"); BN (Rule "domain_def"); BT "DEFINE"; BT "LPAR"];
   [BN (Rule "constants"); BN (Rule "types"); BN (Rule "requirements"); BN (Rule "domain_def"); BT "DEFINE"; BT "LPAR"];
   [BN (Rule "functions"); BN (Rule "types"); BN (Rule "requirements"); BN (Rule "domain_def"); BT "DEFINE"; BT "LPAR"];
   [BN (r0); BN (Rule "types"); BN (Rule "requirements"); BN (Rule "domain_def"); BT "DEFINE"; BT "LPAR"];
   [BT "RPAR"; BN (Rule "types"); BN (Rule "requirements"); BN (Rule "domain_def"); BT "DEFINE"; BT "LPAR"];
   [BN (Rule "functions"); BN (Rule "predicates"); BN (Rule "requirements"); BN (Rule "domain_def"); BT "DEFINE"; BT "LPAR"];
   [BN (r0); BN (Rule "predicates"); BN (Rule "requirements"); BN (Rule "domain_def"); BT "DEFINE"; BT "LPAR"];
   [BT "RPAR"; BN (Rule "predicates"); BN (Rule "requirements"); BN (Rule "domain_def"); BT "DEFINE"; BT "LPAR"];
   [BN (r0); BN (Rule "functions"); BN (Rule "requirements"); BN (Rule "domain_def"); BT "DEFINE"; BT "LPAR"];
   [BT "RPAR"; BN (Rule "functions"); BN (Rule "requirements"); BN (Rule "domain_def"); BT "DEFINE"; BT "LPAR"];
   [BT "RPAR"; BN (r0); BN (Rule "requirements"); BN (Rule "domain_def"); BT "DEFINE"; BT "LPAR"];
   [BN (r0); BN (Rule "predicates"); BN (Rule "constants"); BN (Rule "domain_def"); BT "DEFINE"; BT "LPAR"];
   [BN (Rule "functions"); BN (Rule "predicates"); BN (Rule "constants"); BN (Rule "domain_def"); BT "DEFINE"; BT "LPAR"];
   [BT "RPAR"; BN (Rule "predicates"); BN (Rule "constants"); BN (Rule "domain_def"); BT "DEFINE"; BT "LPAR"];
   [BN (r0); BN (Rule "functions"); BN (Rule "constants"); BN (Rule "domain_def"); BT "DEFINE"; BT "LPAR"];
   [BT "RPAR"; BN (Rule "functions"); BN (Rule "constants"); BN (Rule "domain_def"); BT "DEFINE"; BT "LPAR"];
   [BT "RPAR"; BN (r0); BN (Rule "constants"); BN (Rule "domain_def"); BT "DEFINE"; BT "LPAR"];
   [BT "RPAR"; BN (r0); BN (Rule "functions"); BN (Rule "domain_def"); BT "DEFINE"; BT "LPAR"];
   [BN (r0); BN (Rule "functions"); BN (Rule "types"); BN (Rule "domain_def"); BT "DEFINE"; BT "LPAR"];
   [BT "RPAR"; BN (Rule "functions"); BN (Rule "types"); BN (Rule "domain_def"); BT "DEFINE"; BT "LPAR"];
   [BN (r0); BN (Rule "constants"); BN (Rule "types"); BN (Rule "domain_def"); BT "DEFINE"; BT "LPAR"];
   [BN (Rule "functions"); BN (Rule "constants"); BN (Rule "types"); BN (Rule "domain_def"); BT "DEFINE"; BT "LPAR"];
   [BN (Rule "predicates"); BN (Rule "constants"); BN (Rule "types"); BN (Rule "domain_def"); BT "DEFINE"; BT "LPAR"];
   [BT "RPAR"; BN (Rule "constants"); BN (Rule "types"); BN (Rule "domain_def"); BT "DEFINE"; BT "LPAR"];
   [BT "RPAR"; BN (r0); BN (Rule "types"); BN (Rule "domain_def"); BT "DEFINE"; BT "LPAR"];
   [BN (r0); BN (Rule "predicates"); BN (Rule "types"); BN (Rule "domain_def"); BT "DEFINE"; BT "LPAR"];
   [BN (Rule "functions"); BN (Rule "predicates"); BN (Rule "types"); BN (Rule "domain_def"); BT "DEFINE"; BT "LPAR"];
   [BT "RPAR"; BN (Rule "predicates"); BN (Rule "types"); BN (Rule "domain_def"); BT "DEFINE"; BT "LPAR"];
   [BT "RPAR"; BN (Rule "functions"); BN (Rule "predicates"); BN (Rule "domain_def"); BT "DEFINE"; BT "LPAR"];
   [BN (r0); BN (Rule "functions"); BN (Rule "predicates"); BN (Rule "domain_def"); BT "DEFINE"; BT "LPAR"];
   [BT "RPAR"; BN (r0); BN (Rule "predicates"); BN (Rule "domain_def"); BT "DEFINE"; BT "LPAR"];
   [BT "RPAR"; BT "NAME"; BT "DOMAIN"; BT "LPAR"; BT "DEFINE"; BT "LPAR"];
   [BT "NAME"; BN (r13)];
   [BT "TYPE_SEP"; BN (r13)];
   [BN (r13); BN (r14)];
   [BT "RPAR"; BN (Rule "typed_list_name"); BT "CONSTANTS"; BT "LPAR"];
   [BN (Rule "atomic_function_skeleton"); BN (r10)];
   [BT "TYPE_SEP"; BN (r10); BT "FUNCTIONS"; BT "LPAR"];
   [BN (r10); BN (r11); BT "FUNCTIONS"; BT "LPAR"];
   [BT "RPAR"; BN (Rule "f_typed_list_atomic_function_skeleton"); BT "FUNCTIONS"; BT "LPAR"];
   [BT "NAME"; BT "LPAR"];
   [BN (Rule "require_key"); BN (r15); BT "REQUIREMENTS"; BT "LPAR"; BN (Rule "domain_def"); BT "DEFINE"; BT "LPAR"];
   [BT "RPAR"; BN (r15); BT "REQUIREMENTS"; BT "LPAR"; BN (Rule "domain_def"); BT "DEFINE"; BT "LPAR"];
   [BN (Rule "atomic_formula_skeleton"); BN (r12); BT "PREDICATES"; BT "LPAR"];
   [BT "RPAR"; BN (r12); BT "PREDICATES"; BT "LPAR"];
   [BT "NAME"; BT "LPAR"];
   [BT "PARAMETERS"; BT "NAME"; BT "ACTION"; BT "LPAR"];
   [BT "RPAR"; BN (Rule "typed_list_name"); BT "TYPES"; BT "LPAR"];
   [BT "LPAR"];
   [BN (Rule "atomic_formula_term")];
   [BN (Rule "gd"); BN (Rule "atomic_formula_skeleton"); BT "DERIVED"; BT "LPAR"];
   [BN (r0); BN (Rule "predicates"); BN (Rule "constants"); BN (Rule "requirements"); BN (Rule "domain_def"); BT "DEFINE"; BT "LPAR"];
   [BN (Rule "functions"); BN (Rule "predicates"); BN (Rule "constants"); BN (Rule "requirements"); BN (Rule "domain_def"); BT "DEFINE"; BT "LPAR"];
   [BT "RPAR"; BN (Rule "predicates"); BN (Rule "constants"); BN (Rule "requirements"); BN (Rule "domain_def"); BT "DEFINE"; BT "LPAR"];
   [BN (r0); BN (Rule "functions"); BN (Rule "constants"); BN (Rule "requirements"); BN (Rule "domain_def"); BT "DEFINE"; BT "LPAR"];
   [BT "RPAR"; BN (Rule "functions"); BN (Rule "constants"); BN (Rule "requirements"); BN (Rule "domain_def"); BT "DEFINE"; BT "LPAR"];
   [BT "RPAR"; BN (r0); BN (Rule "constants"); BN (Rule "requirements"); BN (Rule "domain_def"); BT "DEFINE"; BT "LPAR"];
   [BN (Rule "functions"); BN (Rule "predicates"); BN (Rule "types"); BN (Rule "requirements"); BN (Rule "domain_def"); BT "DEFINE"; BT "LPAR"];
   [BN (r0); BN (Rule "predicates"); BN (Rule "types"); BN (Rule "requirements"); BN (Rule "domain_def"); BT "DEFINE"; BT "LPAR"];
   [BT "RPAR"; BN (Rule "predicates"); BN (Rule "types"); BN (Rule "requirements"); BN (Rule "domain_def"); BT "DEFINE"; BT "LPAR"];
   [BN (Rule "predicates"); BN (Rule "constants"); BN (Rule "types"); BN (Rule "requirements"); BN (Rule "domain_def"); BT "DEFINE"; BT "LPAR"];
   [BN (r0); BN (Rule "constants"); BN (Rule "types"); BN (Rule "requirements"); BN (Rule "domain_def"); BT "DEFINE"; BT "LPAR"];
   [BN (Rule "functions"); BN (Rule "constants"); BN (Rule "types"); BN (Rule "requirements"); BN (Rule "domain_def"); BT "DEFINE"; BT "LPAR"];
   [BT "RPAR"; BN (Rule "constants"); BN (Rule "types"); BN (Rule "requirements"); BN (Rule "domain_def"); BT "DEFINE"; BT "LPAR"];
   [BT "RPAR"; BN (Rule "functions"); BN (Rule "types"); BN (Rule "requirements"); BN (Rule "domain_def"); BT "DEFINE"; BT "LPAR"];
   [BN (r0); BN (Rule "functions"); BN (Rule "types"); BN (Rule "requirements"); BN (Rule "domain_def"); BT "DEFINE"; BT "LPAR"];
   [BT "RPAR"; BN (r0); BN (Rule "types"); BN (Rule "requirements"); BN (Rule "domain_def"); BT "DEFINE"; BT "LPAR"];
   [BN (r0); BN (Rule "functions"); BN (Rule "predicates"); BN (Rule "requirements"); BN (Rule "domain_def"); BT "DEFINE"; BT "LPAR"];
   [BT "RPAR"; BN (Rule "functions"); BN (Rule "predicates"); BN (Rule "requirements"); BN (Rule "domain_def"); BT "DEFINE"; BT "LPAR"];
   [BT "RPAR"; BN (r0); BN (Rule "predicates"); BN (Rule "requirements"); BN (Rule "domain_def"); BT "DEFINE"; BT "LPAR"];
   [BT "RPAR"; BN (r0); BN (Rule "functions"); BN (Rule "requirements"); BN (Rule "domain_def"); BT "DEFINE"; BT "LPAR"];
   [BT "RPAR"; BN (r0); BN (Rule "predicates"); BN (Rule "constants"); BN (Rule "domain_def"); BT "DEFINE"; BT "LPAR"];
   [BT "RPAR"; BN (Rule "functions"); BN (Rule "predicates"); BN (Rule "constants"); BN (Rule "domain_def"); BT "DEFINE"; BT "LPAR"];
   [BN (r0); BN (Rule "functions"); BN (Rule "predicates"); BN (Rule "constants"); BN (Rule "domain_def"); BT "DEFINE"; BT "LPAR"];
   [BT "RPAR"; BN (r0); BN (Rule "functions"); BN (Rule "constants"); BN (Rule "domain_def"); BT "DEFINE"; BT "LPAR"];
   [BT "RPAR"; BN (r0); BN (Rule "functions"); BN (Rule "types"); BN (Rule "domain_def"); BT "DEFINE"; BT "LPAR"];
   [BT "RPAR"; BN (r0); BN (Rule "constants"); BN (Rule "types"); BN (Rule "domain_def"); BT "DEFINE"; BT "LPAR"];
   [BN (r0); BN (Rule "functions"); BN (Rule "constants"); BN (Rule "types"); BN (Rule "domain_def"); BT "DEFINE"; BT "LPAR"];
   [BT "RPAR"; BN (Rule "functions"); BN (Rule "constants"); BN (Rule "types"); BN (Rule "domain_def"); BT "DEFINE"; BT "LPAR"];
   [BN (Rule "functions"); BN (Rule "predicates"); BN (Rule "constants"); BN (Rule "types"); BN (Rule "domain_def"); BT "DEFINE"; BT "LPAR"];
   [BN (r0); BN (Rule "predicates"); BN (Rule "constants"); BN (Rule "types"); BN (Rule "domain_def"); BT "DEFINE"; BT "LPAR"];
   [BT "RPAR"; BN (Rule "predicates"); BN (Rule "constants"); BN (Rule "types"); BN (Rule "domain_def"); BT "DEFINE"; BT "LPAR"];
   [BT "RPAR"; BN (r0); BN (Rule "predicates"); BN (Rule "types"); BN (Rule "domain_def"); BT "DEFINE"; BT "LPAR"];
   [BT "RPAR"; BN (Rule "functions"); BN (Rule "predicates"); BN (Rule "types"); BN (Rule "domain_def"); BT "DEFINE"; BT "LPAR"];
   [BN (r0); BN (Rule "functions"); BN (Rule "predicates"); BN (Rule "types"); BN (Rule "domain_def"); BT "DEFINE"; BT "LPAR"];
   [BT "RPAR"; BN (r0); BN (Rule "functions"); BN (Rule "predicates"); BN (Rule "domain_def"); BT "DEFINE"; BT "LPAR"];
   [BN (Rule "primitive_type"); BT "TYPE_SEP"; BN (r13)];
   [BT "NAME"];
   [BT "OBJECT"];
   [BT "TYPE_SEP"; BN (r13); BN (r14)];
   [BN (Rule "f_type_def"); BT "TYPE_SEP"; BN (r10); BT "FUNCTIONS"; BT "LPAR"];
   [BT "TYPE_NUMBER"; BT "TYPE_SEP"; BN (r10)];
   [BT "TYPE_SEP"; BN (r10); BN (r11); BT "FUNCTIONS"; BT "LPAR"];
   [BT "?"];
   [BN (r4)];
   [BN (r5)];
   [BN (Rule "variable")];
   [BN (Rule "typed_list_variable"); BT "NAME"; BT "LPAR"];
   [BN (Rule "typed_list_variable"); BT "NAME"; BT "LPAR"];
   [BT "LPAR"; BT "PARAMETERS"; BT "NAME"; BT "ACTION"; BT "LPAR"];
   [BN (Rule "action_parameters"); BT "PARAMETERS"; BT "NAME"; BT "ACTION"; BT "LPAR"];
   [BT "FORALL"; BT "LPAR"];
   [BT "NOT"; BT "LPAR"];
   [BN (Rule "predicate"); BT "LPAR"];
   [BT "EQUAL_OP"; BT "LPAR"];
   [BT "AND"; BT "LPAR"];
   [BT "IMPLY"; BT "LPAR"];
   [BT "OR"; BT "LPAR"];
   [BT "LESSER_OP"; BT "LPAR"];
   [BT "LESSER_EQUAL_OP"; BT "LPAR"];
   [BT "NAME"; BT "LPAR"];
   [BT "GREATER_OP"; BT "LPAR"];
   [BT "GREATER_EQUAL_OP"; BT "LPAR"];
   [BN (Rule "binary_comp"); BT "LPAR"];
   [BT "EXISTS"; BT "LPAR"];
   [BT "RPAR"; BN (Rule "gd"); BN (Rule "atomic_formula_skeleton"); BT "DERIVED"; BT "LPAR"];
   [BT "RPAR"; BN (r0); BN (Rule "predicates"); BN (Rule "constants"); BN (Rule "requirements"); BN (Rule "domain_def"); BT "DEFINE"; BT "LPAR"];
   [BN (r0); BN (Rule "functions"); BN (Rule "predicates"); BN (Rule "constants"); BN (Rule "requirements"); BN (Rule "domain_def"); BT "DEFINE"; BT "LPAR"];
   [BT "RPAR"; BN (Rule "functions"); BN (Rule "predicates"); BN (Rule "constants"); BN (Rule "requirements"); BN (Rule "domain_def"); BT "DEFINE"; BT "LPAR"];
   [BT "RPAR"; BN (r0); BN (Rule "functions"); BN (Rule "constants"); BN (Rule "requirements"); BN (Rule "domain_def"); BT "DEFINE"; BT "LPAR"];
   [BT "RPAR"; BN (Rule "functions"); BN (Rule "predicates"); BN (Rule "types"); BN (Rule "requirements"); BN (Rule "domain_def"); BT "DEFINE"; BT "LPAR"];
   [BN (r0); BN (Rule "functions"); BN (Rule "predicates"); BN (Rule "types"); BN (Rule "requirements"); BN (Rule "domain_def"); BT "DEFINE"; BT "LPAR"];
   [BT "RPAR"; BN (r0); BN (Rule "predicates"); BN (Rule "types"); BN (Rule "requirements"); BN (Rule "domain_def"); BT "DEFINE"; BT "LPAR"];
   [BN (Rule "functions"); BN (Rule "predicates"); BN (Rule "constants"); BN (Rule "types"); BN (Rule "requirements"); BN (Rule "domain_def"); BT "DEFINE"; BT "LPAR"];
   [BN (r0); BN (Rule "predicates"); BN (Rule "constants"); BN (Rule "types"); BN (Rule "requirements"); BN (Rule "domain_def"); BT "DEFINE"; BT "LPAR"];
   [BT "RPAR"; BN (Rule "predicates"); BN (Rule "constants"); BN (Rule "types"); BN (Rule "requirements"); BN (Rule "domain_def"); BT "DEFINE"; BT "LPAR"];
   [BT "RPAR"; BN (r0); BN (Rule "constants"); BN (Rule "types"); BN (Rule "requirements"); BN (Rule "domain_def"); BT "DEFINE"; BT "LPAR"];
   [BN (r0); BN (Rule "functions"); BN (Rule "constants"); BN (Rule "types"); BN (Rule "requirements"); BN (Rule "domain_def"); BT "DEFINE"; BT "LPAR"];
   [BT "RPAR"; BN (Rule "functions"); BN (Rule "constants"); BN (Rule "types"); BN (Rule "requirements"); BN (Rule "domain_def"); BT "DEFINE"; BT "LPAR"];
   [BT "RPAR"; BN (r0); BN (Rule "functions"); BN (Rule "types"); BN (Rule "requirements"); BN (Rule "domain_def"); BT "DEFINE"; BT "LPAR"];
   [BT "RPAR"; BN (r0); BN (Rule "functions"); BN (Rule "predicates"); BN (Rule "requirements"); BN (Rule "domain_def"); BT "DEFINE"; BT "LPAR"];
   [BT "RPAR"; BN (r0); BN (Rule "functions"); BN (Rule "predicates"); BN (Rule "constants"); BN (Rule "domain_def"); BT "DEFINE"; BT "LPAR"];
   [BT "RPAR"; BN (r0); BN (Rule "functions"); BN (Rule "constants"); BN (Rule "types"); BN (Rule "domain_def"); BT "DEFINE"; BT "LPAR"];
   [BN (r0); BN (Rule "functions"); BN (Rule "predicates"); BN (Rule "constants"); BN (Rule "types"); BN (Rule "domain_def"); BT "DEFINE"; BT "LPAR"];
   [BT "RPAR"; BN (Rule "functions"); BN (Rule "predicates"); BN (Rule "constants"); BN (Rule "types"); BN (Rule "domain_def"); BT "DEFINE"; BT "LPAR"];
   [BT "RPAR"; BN (r0); BN (Rule "predicates"); BN (Rule "constants"); BN (Rule "types"); BN (Rule "domain_def"); BT "DEFINE"; BT "LPAR"];
   [BT "RPAR"; BN (r0); BN (Rule "functions"); BN (Rule "predicates"); BN (Rule "types"); BN (Rule "domain_def"); BT "DEFINE"; BT "LPAR"];
   [BN (Rule "primitive_type"); BT "TYPE_SEP"; BN (r13); BN (r14)];
   [BN (Rule "f_type_def"); BT "TYPE_SEP"; BN (r10); BN (r11); BT "FUNCTIONS"; BT "LPAR"];
   [BT "NAME"; BT "?"];
   [BN (Rule "variable"); BN (r4)];
   [BT "TYPE_SEP"; BN (r4)];
   [BN (r4); BN (r5)];
   [BT "RPAR"; BN (Rule "typed_list_variable"); BT "NAME"; BT "LPAR"];
   [BT "RPAR"; BN (Rule "typed_list_variable"); BT "NAME"; BT "LPAR"];
   [BN (Rule "typed_list_variable"); BT "LPAR"; BT "PARAMETERS"; BT "NAME"; BT "ACTION"; BT "LPAR"];
   [BN (Rule "action_body_def"); BN (Rule "action_parameters"); BT "PARAMETERS"; BT "NAME"; BT "ACTION"; BT "LPAR"];
   [BT "PRECONDITION"; BN (Rule "action_parameters"); BT "PARAMETERS"; BT "NAME"; BT "ACTION"; BT "LPAR"];
   [BT "EFFECT"; BN (Rule "action_parameters"); BT "PARAMETERS"; BT "NAME"; BT "ACTION"; BT "LPAR"];
   [BT "LPAR"; BT "FORALL"; BT "LPAR"];
   [BN (Rule "gd"); BT "NOT"; BT "LPAR"];
   [BN (r3); BN (Rule "predicate"); BT "LPAR"];
   [BT "NAME"];
   [BN (Rule "constant")];
   [BN (Rule "term")];
   [BN (Rule "variable")];
   [BT "RPAR"; BN (Rule "predicate"); BT "LPAR"];
   [BN (Rule "term"); BT "EQUAL_OP"; BT "LPAR"];
   [BN (Rule "gd")];
   [BN (r1); BT "AND"; BT "LPAR"];
   [BT "RPAR"; BT "AND"; BT "LPAR"];
   [BN (Rule "gd"); BT "IMPLY"; BT "LPAR"];
   [BN (r1); BT "OR"; BT "LPAR"];
   [BT "RPAR"; BT "OR"; BT "LPAR"];
   [BT "LPAR"];
   [BT "NAME"];
   [BN (Rule "num_literal")];
   [BN (Rule "f_exp"); BN (Rule "binary_comp"); BT "LPAR"];
   [BN (Rule "f_head")];
   [BT "NUMBER"];
   [BT "LPAR"; BT "EXISTS"; BT "LPAR"];
   [BT "RPAR"; BN (r0); BN (Rule "functions"); BN (Rule "predicates"); BN (Rule "constants"); BN (Rule "requirements"); BN (Rule "domain_def"); BT "DEFINE"; BT "LPAR"];
   [BT "RPAR"; BN (r0); BN (Rule "functions"); BN (Rule "predicates"); BN (Rule "types"); BN (Rule "requirements"); BN (Rule "domain_def"); BT "DEFINE"; BT "LPAR"];
   [BN (r0); BN (Rule "functions"); BN (Rule "predicates"); BN (Rule "constants"); BN (Rule "types"); BN (Rule "requirements"); BN (Rule "domain_def"); BT "DEFINE"; BT "LPAR"];
   [BT "RPAR"; BN (Rule "functions"); BN (Rule "predicates"); BN (Rule "constants"); BN (Rule "types"); BN (Rule "requirements"); BN (Rule "domain_def"); BT "DEFINE"; BT "LPAR"];
   [BT "RPAR"; BN (r0); BN (Rule "predicates"); BN (Rule "constants"); BN (Rule "types"); BN (Rule "requirements"); BN (Rule "domain_def"); BT "DEFINE"; BT "LPAR"];
   [BT "RPAR"; BN (r0); BN (Rule "functions"); BN (Rule "constants"); BN (Rule "types"); BN (Rule "requirements"); BN (Rule "domain_def"); BT "DEFINE"; BT "LPAR"];
   [BT "RPAR"; BN (r0); BN (Rule "functions"); BN (Rule "predicates"); BN (Rule "constants"); BN (Rule "types"); BN (Rule "domain_def"); BT "DEFINE"; BT "LPAR"];
   [BT "LPAR"; BT "TYPE_SEP"; BN (r4)];
   [BN (Rule "primitive_type"); BT "TYPE_SEP"; BN (r4)];
   [BN (Rule "type_def"); BT "TYPE_SEP"; BN (r4)];
   [BT "TYPE_SEP"; BN (r4); BN (r5)];
   [BT "RPAR"; BN (Rule "typed_list_variable"); BT "LPAR"; BT "PARAMETERS"; BT "NAME"; BT "ACTION"; BT "LPAR"];
   [BT "RPAR"; BN (Rule "action_body_def"); BN (Rule "action_parameters"); BT "PARAMETERS"; BT "NAME"; BT "ACTION"; BT "LPAR"];
   [BT "LPAR"; BT "PRECONDITION"; BN (Rule "action_parameters"); BT "PARAMETERS"; BT "NAME"; BT "ACTION"; BT "LPAR"];
   [BN (Rule "emptyor_pregd"); BT "PRECONDITION"; BN (Rule "action_parameters"); BT "PARAMETERS"; BT "NAME"; BT "ACTION"; BT "LPAR"];
   [BN (Rule "gd"); BT "PRECONDITION"; BN (Rule "action_parameters"); BT "PARAMETERS"; BT "NAME"; BT "ACTION"; BT "LPAR"];
   [BN (Rule "emptyor_effect"); BT "EFFECT"; BN (Rule "action_parameters"); BT "PARAMETERS"; BT "NAME"; BT "ACTION"; BT "LPAR"];
   [BT "LPAR"; BT "EFFECT"];
   [BN (Rule "c_effect")];
   [BN (Rule "num_effect")];
   [BN (Rule "effect"); BT "EFFECT"];
   [BN (Rule "p_effect")];
   [BN (Rule "atomic_formula_term")];
   [BN (Rule "typed_list_variable"); BT "LPAR"; BT "FORALL"; BT "LPAR"];
   [BT "RPAR"; BN (Rule "gd"); BT "NOT"; BT "LPAR"];
   [BN (Rule "term"); BN (r3)];
   [BT "RPAR"; BN (r3); BN (Rule "predicate"); BT "LPAR"];
   [BN (Rule "term"); BN (Rule "term"); BT "EQUAL_OP"; BT "LPAR"];
   [BN (Rule "gd"); BN (r1)];
   [BT "RPAR"; BN (r1); BT "AND"; BT "LPAR"];
   [BN (Rule "gd"); BN (Rule "gd"); BT "IMPLY"; BT "LPAR"];
   [BT "RPAR"; BN (r1); BT "OR"; BT "LPAR"];
   [BN (Rule "multi_op"); BT "LPAR"];
   [BT "MINUS"; BT "LPAR"];
   [BT "NAME"; BT "LPAR"];
   [BT "DIVIDE"; BT "LPAR"];
   [BT "TIMES"; BT "LPAR"];
   [BT "PLUS"; BT "LPAR"];
   [BN (Rule "binary_op"); BT "LPAR"];
   [BN (Rule "f_exp"); BN (Rule "f_exp"); BN (Rule "binary_comp"); BT "LPAR"];
   [BN (Rule "typed_list_variable"); BT "LPAR"; BT "EXISTS"; BT "LPAR"];
   [BT "RPAR"; BN (r0); BN (Rule "functions"); BN (Rule "predicates"); BN (Rule "constants"); BN (Rule "types"); BN (Rule "requirements"); BN (Rule "domain_def"); BT "DEFINE"; BT "LPAR"];
   [BT "EITHER"; BT "LPAR"; BT "TYPE_SEP"; BN (r4)];
   [BN (Rule "type_def"); BT "TYPE_SEP"; BN (r4); BN (r5)];
   [BT "RPAR"; BT "LPAR"; BT "PRECONDITION"; BN (Rule "action_parameters"); BT "PARAMETERS"; BT "NAME"; BT "ACTION"; BT "LPAR"];
   [BT "EFFECT"; BN (Rule "emptyor_pregd"); BT "PRECONDITION"; BN (Rule "action_parameters"); BT "PARAMETERS"; BT "NAME"; BT "ACTION"; BT "LPAR"];
   [BN (Rule "assign_op"); BT "LPAR"];
   [BT "NOT"; BT "LPAR"];
   [BT "AND"; BT "LPAR"];
   [BT "EQUAL_OP"; BT "LPAR"];
   [BT "RPAR"; BT "LPAR"; BT "EFFECT"];
   [BT "WHEN"; BT "LPAR"];
   [BT "SCALE_UP"; BT "LPAR"];
   [BT "INCREASE"; BT "LPAR"];
   [BT "ONEOF"; BT "LPAR"];
   [BT "ASSIGN"; BT "LPAR"];
   [BT "DECREASE"; BT "LPAR"];
   [BT "SCALE_DOWN"; BT "LPAR"];
   [BT "FORALL"; BT "LPAR"];
   [BT "RPAR"; BN (Rule "typed_list_variable"); BT "LPAR"; BT "FORALL"; BT "LPAR"];
   [BT "RPAR"; BN (Rule "term"); BN (Rule "term"); BT "EQUAL_OP"; BT "LPAR"];
   [BT "RPAR"; BN (Rule "gd"); BN (Rule "gd"); BT "IMPLY"; BT "LPAR"];
   [BN (Rule "f_exp"); BN (Rule "multi_op"); BT "LPAR"];
   [BN (Rule "f_exp"); BT "MINUS"; BT "LPAR"];
   [BN (r3); BT "NAME"; BT "LPAR"];
   [BT "RPAR"; BT "NAME"; BT "LPAR"];
   [BN (Rule "f_exp"); BN (Rule "binary_op"); BT "LPAR"];
   [BT "RPAR"; BN (Rule "f_exp"); BN (Rule "f_exp"); BN (Rule "binary_comp"); BT "LPAR"];
   [BT "RPAR"; BN (Rule "typed_list_variable"); BT "LPAR"; BT "EXISTS"; BT "LPAR"];
   [BN (Rule "primitive_type"); BT "EITHER"; BT "LPAR"; BT "TYPE_SEP"; BN (r4)];
   [BN (r6); BT "EITHER"; BT "LPAR"; BT "TYPE_SEP"; BN (r4)];
   [BN (Rule "emptyor_effect"); BT "EFFECT"; BN (Rule "emptyor_pregd"); BT "PRECONDITION"; BN (Rule "action_parameters"); BT "PARAMETERS"; BT "NAME"; BT "ACTION"; BT "LPAR"];
   [BN (Rule "f_head"); BN (Rule "assign_op"); BT "LPAR"];
   [BT "LPAR"; BN (Rule "assign_op"); BT "LPAR"];
   [BT "LPAR"; BT "NOT"; BT "LPAR"];
   [BN (Rule "atomic_formula_term"); BT "NOT"; BT "LPAR"];
   [BT "LPAR"];
   [BN (Rule "c_effect"); BT "AND"; BT "LPAR"];
   [BN (r7); BT "AND"; BT "LPAR"];
   [BT "RPAR"; BT "AND"; BT "LPAR"];
   [BN (Rule "gd"); BT "WHEN"; BT "LPAR"];
   [BT "LPAR"];
   [BN (Rule "effect"); BT "ONEOF"; BT "LPAR"];
   [BN (r8); BT "ONEOF"; BT "LPAR"];
   [BT "LPAR"; BT "FORALL"; BT "LPAR"];
   [BN (Rule "gd"); BT "RPAR"; BN (Rule "typed_list_variable"); BT "LPAR"; BT "FORALL"; BT "LPAR"];
   [BN (Rule "f_exp"); BN (Rule "f_exp"); BN (Rule "multi_op"); BT "LPAR"];
   [BN (r2); BN (Rule "f_exp"); BN (Rule "multi_op"); BT "LPAR"];
   [BT "RPAR"; BN (Rule "f_exp"); BT "MINUS"; BT "LPAR"];
   [BT "RPAR"; BN (r3); BT "NAME"; BT "LPAR"];
   [BN (Rule "f_exp"); BN (Rule "f_exp"); BN (Rule "binary_op"); BT "LPAR"];
   [BN (Rule "gd"); BT "RPAR"; BN (Rule "typed_list_variable"); BT "LPAR"; BT "EXISTS"; BT "LPAR"];
   [BT "RPAR"; BN (r6); BT "EITHER"; BT "LPAR"; BT "TYPE_SEP"; BN (r4)];
   [BN (Rule "primitive_type"); BN (r6); BT "EITHER"; BT "LPAR"; BT "TYPE_SEP"; BN (r4)];
   [BN (Rule "f_exp"); BN (Rule "f_head"); BN (Rule "assign_op"); BT "LPAR"];
   [BT "RPAR"; BN (Rule "atomic_formula_term"); BT "NOT"; BT "LPAR"];
   [BN (Rule "c_effect"); BN (r7); BT "AND"; BT "LPAR"];
   [BT "RPAR"; BN (r7); BT "AND"; BT "LPAR"];
   [BN (Rule "p_effect"); BN (Rule "gd"); BT "WHEN"; BT "LPAR"];
   [BT "LPAR"; BN (Rule "gd"); BT "WHEN"; BT "LPAR"];
   [BN (Rule "cond_effect"); BN (Rule "gd"); BT "WHEN"; BT "LPAR"];
   [BN (Rule "effect"); BN (r8); BT "ONEOF"; BT "LPAR"];
   [BT "RPAR"; BN (r8); BT "ONEOF"; BT "LPAR"];
   [BN (Rule "typed_list_variable"); BT "LPAR"; BT "FORALL"; BT "LPAR"];
   [BT "RPAR"; BN (Rule "gd"); BT "RPAR"; BN (Rule "typed_list_variable"); BT "LPAR"; BT "FORALL"; BT "LPAR"];
   [BT "RPAR"; BN (r2); BN (Rule "f_exp"); BN (Rule "multi_op"); BT "LPAR"];
   [BN (Rule "f_exp"); BN (r2); BN (Rule "f_exp"); BN (Rule "multi_op"); BT "LPAR"];
   [BT "RPAR"; BN (Rule "f_exp"); BN (Rule "f_exp"); BN (Rule "binary_op"); BT "LPAR"];
   [BT "RPAR"; BN (Rule "gd"); BT "RPAR"; BN (Rule "typed_list_variable"); BT "LPAR"; BT "EXISTS"; BT "LPAR"];
   [BT "RPAR"; BN (Rule "f_exp"); BN (Rule "f_head"); BN (Rule "assign_op"); BT "LPAR"];
   [BT "AND"; BT "LPAR"; BN (Rule "gd"); BT "WHEN"; BT "LPAR"];
   [BT "RPAR"; BN (Rule "cond_effect"); BN (Rule "gd"); BT "WHEN"; BT "LPAR"];
   [BT "RPAR"; BN (Rule "typed_list_variable"); BT "LPAR"; BT "FORALL"; BT "LPAR"];
   [BT "RPAR"; BT "AND"; BT "LPAR"; BN (Rule "gd"); BT "WHEN"; BT "LPAR"];
   [BN (r16); BT "AND"; BT "LPAR"; BN (Rule "gd"); BT "WHEN"; BT "LPAR"];
   [BT "LPAR"];
   [BN (Rule "p_effect"); BT "AND"; BT "LPAR"; BN (Rule "gd"); BT "WHEN"; BT "LPAR"];
   [BN (Rule "effect"); BT "RPAR"; BN (Rule "typed_list_variable"); BT "LPAR"; BT "FORALL"; BT "LPAR"];
   [BT "RPAR"; BN (r16); BT "AND"; BT "LPAR"; BN (Rule "gd"); BT "WHEN"; BT "LPAR"];
   [BN (Rule "p_effect"); BN (r16); BT "AND"; BT "LPAR"; BN (Rule "gd"); BT "WHEN"; BT "LPAR"];
   [BT "RPAR"; BN (Rule "effect"); BT "RPAR"; BN (Rule "typed_list_variable"); BT "LPAR"; BT "FORALL"; BT "LPAR"]].
Definition domain_names : list (list string) :=
  [f35;
   f35;
   f35;
   f35;
   f35;
   f35;
   f35;
   f35;
   f35;
   f35;
   f35;
   f35;
   f35;
   f35;
   f35;
   f35;
   f35;
   f35;
   f35;
   f35;
   f35;
   f35;
   f35;
   f35;
   f35;
   f35;
   f35;
   f35;
   f35;
   f35;
   f35;
   f35;
   f35;
   f35;
   f35;
   f35;
   f35;
   f35;
   f35;
   f35;
   f35;
   f35;
   f35;
   f35;
   f35;
   f35;
   f35;
   f35;
   f35;
   f35;
   f35;
   f35;
   f35;
   f35;
   f36;
   f35;
   f35;
   f35;
   f35;
   f35;
   f35;
   f35;
   f35;
   f35;
   f35;
   f35;
   f35;
   f35;
   f35;
   f35;
   f35;
   f35;
   f35;
   f35;
   f35;
   f35;
   f35;
   f35;
   f35;
   f35;
   f35;
   f35;
   f35;
   f35;
   f35;
   f35;
   f35;
   f35;
   f35;
   f35;
   f35;
   f35;
   f35;
   f35;
   f35;
   f35;
   f35;
   f35;
   f35;
   f35;
   f35;
   f35;
   f35;
   f35;
   f35;
   f35;
   f35;
   f35;
   f35;
   f35;
   f35;
   f35;
   f35;
   f35;
   f35;
   f35;
   f35;
   f35;
   f35;
   f35;
   f35;
   f35;
   f36;
   f35;
   f35;
   f35;
   f35;
   f35;
   f35;
   f35;
   f35;
   f35;
   f35;
   f35;
   f35;
   f35;
   f35;
   f37;
   f35;
   f35;
   f35;
   f35;
   f35;
   f35;
   f35;
   f35;
   f35;
   f35;
   f35;
   f35;
   f35;
   f35;
   f35;
   f35;
   f35;
   f35;
   f35;
   f35;
   f35;
   f35;
   f35;
   f35;
   f35;
   f35;
   f35;
   f35;
   f35;
   f35;
   f35;
   f35;
   f35;
   f35;
   f35;
   f35;
   f35;
   f36;
   f36;
   f36;
   f36;
   f35;
   f35;
   f35;
   f35;
   f35;
   f35;
   f35;
   f35;
   f35;
   f35;
   f35;
   f35;
   f35;
   f35;
   f35;
   f35;
   f35;
   f35;
   f35;
   f35;
   f35;
   f35;
   f35;
   f35;
   f35;
   f35;
   f35;
   f35;
   f35;
   f35;
   f35;
   f35;
   f35;
   f35;
   f35;
   f35;
   f35;
   f35;
   f35;
   f35;
   f35;
   f35;
   f35;
   f35;
   f35;
   f35;
   f35;
   f36;
   f35;
   f35;
   f35;
   f36;
   f35;
   f35;
   f35;
   f35;
   f35;
   f35;
   f35;
   f35;
   f35;
   f35;
   f35;
   f35;
   f35;
   f35;
   f35;
   f35;
   f35;
   f35;
   f35;
   f35;
   f35;
   f35;
   f35;
   f35;
   f35;
   f35;
   f35;
   f35;
   f35;
   f35;
   f35;
   f35;
   f35;
   f35;
   f35;
   f35;
   f35;
   f35;
   f35;
   f36;
   f35;
   f35;
   f37;
   f35;
   f35;
   f35;
   f38;
   f35;
   f35;
   f35;
   f35;
   f35;
   f35;
   f35;
   f35;
   f35;
   f35;
   f35;
   f35;
   f35;
   f35;
   f35;
   f35;
   f35;
   f35;
   f35;
   f35;
   f35;
   f35;
   f35;
   f35;
   f36;
   f35;
   f35;
   f35;
   f35;
   f35;
   f35;
   f35;
   f35;
   f35;
   f35;
   f35;
   f35;
   f35;
   f35;
   f35;
   f35;
   f35;
   f35;
   f35;
   f35;
   f35;
   f35;
   f35;
   f35;
   f35;
   f35;
   f36;
   f36;
   f35;
   f35;
   f35;
   f35;
   f35;
   f39;
   f35;
   f35;
   f35;
   f35;
   f38;
   f35;
   f35;
   f35;
   f35;
   f35;
   f35;
   f35;
   f35;
   f35;
   f35;
   f35;
   f36;
   f35;
   f35;
   f35;
   f35;
   f35;
   f40;
   f35;
   f35;
   f35;
   f35;
   f35;
   f35;
   f35;
   f35;
   f35;
   f35;
   f35;
   f35;
   f35;
   f35;
   f35;
   f41;
   f35;
   f35;
   f35;
   f35;
   f35].
Definition domain_rank : list (nt * (nat * nat)) :=
  [(r12, (99, 0));
   (r10, (99, 0));
   (r7, (97, 0));
   (r8, (96, 0));
   (r2, (97, 0));
   (r1, (98, 0));
   (r16, (98, 0));
   (r6, (98, 0));
   (r15, (98, 0));
   (r0, (98, 0));
   (r3, (97, 0));
   (r4, (99, 0));
   (r11, (100, 0));
   (r5, (100, 0));
   (r14, (100, 0));
   (r13, (99, 0));
   (Rule "action_body_def", (19, 0));
   (Rule "action_def", (100, 0));
   (Rule "action_parameters", (100, 20));
   (Rule "assign_op", (99, 0));
   (Rule "atomic_formula_skeleton", (100, 0));
   (Rule "atomic_formula_term", (100, 0));
   (Rule "atomic_function_skeleton", (100, 0));
   (Rule "binary_comp", (99, 0));
   (Rule "binary_op", (99, 0));
   (Rule "c_effect", (98, 0));
   (Rule "cond_effect", (98, 0));
   (Rule "constant", (99, 0));
   (Rule "constants", (100, 0));
   (Rule "derived_predicates", (100, 0));
   (Rule "domain", (100, 0));
   (Rule "domain_def", (100, 0));
   (Rule "effect", (97, 0));
   (Rule "emptyor_effect", (96, 0));
   (Rule "emptyor_pregd", (98, 0));
   (Rule "f_exp", (98, 0));
   (Rule "f_head", (99, 0));
   (Rule "f_type_def", (99, 0));
   (Rule "f_typed_list_atomic_function_skeleton", (98, 0));
   (Rule "functions", (100, 0));
   (Rule "gd", (99, 0));
   (Rule "multi_op", (99, 0));
   (Rule "num_effect", (100, 0));
   (Rule "num_literal", (99, 0));
   (Rule "p_effect", (99, 0));
   (Rule "predicate", (99, 0));
   (Rule "predicates", (100, 0));
   (Rule "primitive_type", (99, 0));
   (Rule "require_key", (99, 0));
   (Rule "requirements", (100, 0));
   (Rule "structure_def", (99, 0));
   (Rule "term", (98, 0));
   (Rule "type_def", (98, 0));
   (Rule "typed_list_name", (19, 0));
   (Rule "typed_list_variable", (19, 0));
   (Rule "types", (100, 0));
   (Rule "variable", (100, 0))].
Definition problem_follow : list (list (nt * list string)) :=
  [[(Rule "problem", f0)];
   [];
   [];
   [(Rule "problem_def", f2)];
   [(Rule "problem_domain", f2)];
   [];
   [(Rule "init", f2); (Rule "objects", f2); (Rule "requirements", f2)];
   [];
   [];
   [(Rule "init", f2); (Rule "objects", f2)];
   [(Rule "goal", f1)];
   [];
   [(Rule "init", f2)];
   [];
   [];
   [(Rule "init", f2)];
   [];
   [(Rule "goal", f1)];
   [(Rule "metric_spec", f3)];
   [];
   [(Rule "require_key", f17); (r15, f17)];
   [(Rule "typed_list_name", f3); (r13, f15); (r14, f16)];
   [(Rule "atomic_formula_name@init", f1); (Rule "init_el", f1); (Rule "literal_name", f1); (r18, f1)];
   [(Rule "goal", f1)];
   [];
   [];
   [];
   [(Rule "goal", f1)];
   [(Rule "metric_spec", f3)];
   [];
   [];
   [];
   [(Rule "atomic_formula_term@gd", f3); (Rule "gd", f3)];
   [];
   [];
   [];
   [];
   [];
   [];
   [(Rule "require_key", f17)];
   [];
   [];
   [];
   [];
   [];
   [];
   [];
   [];
   [];
   [];
   [(r13, f15)];
   [];
   [];
   [];
   [];
   [];
   [];
   [(Rule "atomic_formula_name@init", f1); (Rule "init_el", f1); (Rule "literal_name", f1)];
   [(Rule "predicate@init", f16)];
   [];
   [(Rule "metric_spec", f3)];
   [];
   [(Rule "metric_spec", f3)];
   [];
   [];
   [(Rule "optimization", f4)];
   [];
   [];
   [(Rule "binary_comp", f4); (Rule "predicate@gd", f6)];
   [];
   [];
   [];
   [];
   [];
   [(Rule "primitive_type", f16)];
   [];
   [];
   [];
   [(Rule "atomic_formula_name", f3)];
   [(r13, f16)];
   [];
   [(Rule "basic_function_term", f27)];
   [];
   [];
   [];
   [];
   [];
   [];
   [(Rule "basic_function_term", f3); (Rule "metric_f_exp", f3)];
   [];
   [];
   [(Rule "atomic_formula_term@gd", f3); (Rule "gd", f3)];
   [(Rule "f_exp", f4); (Rule "f_head", f4); (Rule "num_literal", f4)];
   [(Rule "atomic_formula_term@gd", f1); (Rule "gd", f1); (r1, f1)];
   [(Rule "atomic_formula_term@gd", f1); (Rule "gd", f1); (r1, f1)];
   [(Rule "constant", f6); (Rule "term", f6); (Rule "variable", f6); (r3, f6)];
   [];
   [(Rule "atomic_formula_term@gd", f2); (Rule "gd", f2)];
   [(Rule "constant", f7); (Rule "term", f7); (Rule "variable", f7)];
   [];
   [];
   [];
   [];
   [];
   [(Rule "primitive_type", f16)];
   [];
   [];
   [];
   [(Rule "predicate", f16)];
   [];
   [];
   [];
   [(Rule "num_literal", f3)];
   [];
   [];
   [];
   [];
   [(Rule "binary_op", f4); (Rule "multi_op", f4)];
   [];
   [];
   [];
   [(Rule "typed_list_variable", f3); (Rule "variable", f8); (r4, f8); (r5, f9)];
   [];
   [];
   [(Rule "binary_op", f4); (Rule "multi_op", f4)];
   [];
   [];
   [(Rule "f_exp", f3); (Rule "f_head", f3); (Rule "num_literal", f3)];
   [];
   [];
   [(Rule "atomic_formula_term@gd", f1); (Rule "gd", f1)];
   [];
   [];
   [(Rule "atomic_formula_term@gd", f1); (Rule "gd", f1)];
   [];
   [(Rule "constant", f6); (Rule "term", f6); (Rule "variable", f6)];
   [];
   [];
   [];
   [];
   [];
   [(Rule "typed_list_variable", f3); (Rule "variable", f8); (r4, f8); (r5, f9)];
   [(Rule "atomic_formula_term@gd", f3); (Rule "gd", f3)];
   [(Rule "constant", f3); (Rule "term", f3); (Rule "variable", f3)];
   [];
   [];
   [];
   [];
   [(r13, f16)];
   [(Rule "basic_function_term", f4); (Rule "metric_f_exp", f4)];
   [(Rule "basic_function_term", f3); (Rule "metric_f_exp", f3)];
   [];
   [];
   [];
   [(Rule "basic_function_term", f4); (Rule "metric_f_exp", f4)];
   [];
   [(Rule "variable", f8); (r4, f8)];
   [(Rule "variable", f8)];
   [];
   [];
   [];
   [(Rule "f_exp", f4); (Rule "f_head", f4); (Rule "num_literal", f4)];
   [(Rule "f_exp", f3); (Rule "f_head", f3); (Rule "num_literal", f3)];
   [(Rule "constant", f6); (Rule "term", f6); (Rule "variable", f6); (r3, f6)];
   [(Rule "f_exp", f4); (Rule "f_head", f4); (Rule "num_literal", f4)];
   [];
   [];
   [];
   [];
   [];
   [];
   [];
   [];
   [];
   [];
   [];
   [];
   [];
   [(Rule "basic_function_term", f5); (Rule "metric_f_exp", f5); (r17, f5)];
   [];
   [(Rule "basic_function_term", f3); (Rule "metric_f_exp", f3)];
   [(Rule "variable", f8)];
   [(Rule "primitive_type", f9); (Rule "type_def", f9)];
   [];
   [(Rule "atomic_formula_term@gd", f3); (Rule "gd", f3)];
   [(Rule "f_exp", f5); (Rule "f_head", f5); (Rule "num_literal", f5); (r2, f5)];
   [];
   [];
   [(Rule "constant", f6); (Rule "term", f6); (Rule "variable", f6)];
   [(Rule "f_exp", f3); (Rule "f_head", f3); (Rule "num_literal", f3)];
   [];
   [(Rule "atomic_formula_term@gd", f3); (Rule "gd", f3)];
   [];
   [];
   [];
   [];
   [(Rule "basic_function_term", f5); (Rule "metric_f_exp", f5)];
   [];
   [];
   [(Rule "primitive_type", f9); (Rule "type_def", f9)];
   [];
   [];
   [];
   [];
   [];
   [(Rule "f_exp", f5); (Rule "f_head", f5); (Rule "num_literal", f5)];
   [];
   [];
   [];
   [];
   [];
   [];
   [];
   [];
   [(Rule "primitive_type", f10); (r6, f10)];
   [];
   [];
   [];
   [];
   [];
   [];
   [(Rule "primitive_type", f10)];
   [];
   []].
Definition problem_first : list (nt * (bool * list string)) :=
  [(Rule "problem", (false, f2));
   (Rule "problem_def", (false, f2));
   (Rule "problem_domain", (false, f2));
   (Rule "requirements", (false, f2));
   (Rule "objects", (false, f2));
   (Rule "init", (false, f2));
   (Rule "goal", (false, f2));
   (Rule "metric_spec", (false, f2));
   (r15, (false, f18));
   (Rule "typed_list_name", (true, f19));
   (r18, (false, f2));
   (Rule "gd", (false, f2));
   (Rule "optimization", (false, f42));
   (Rule "metric_f_exp", (false, f4));
   (Rule "require_key", (false, f18));
   (r13, (false, f19));
   (r14, (false, f19));
   (Rule "init_el", (false, f2));
   (Rule "atomic_formula_term@gd", (false, f2));
   (r1, (false, f2));
   (Rule "typed_list_variable", (true, f21));
   (Rule "binary_comp", (false, f24));
   (Rule "f_exp", (false, f4));
   (Rule "binary_op", (false, f28));
   (Rule "multi_op", (false, f29));
   (r17, (false, f4));
   (Rule "basic_function_term", (false, f13));
   (Rule "primitive_type", (false, f20));
   (Rule "literal_name", (false, f2));
   (Rule "num_literal", (false, f27));
   (Rule "predicate@gd", (false, f26));
   (r3, (false, f7));
   (Rule "term", (false, f7));
   (r4, (false, f21));
   (r5, (false, f21));
   (r2, (false, f4));
   (Rule "f_head", (false, f13));
   (Rule "atomic_formula_name@init", (false, f2));
   (Rule "atomic_formula_name", (false, f2));
   (Rule "constant", (false, f19));
   (Rule "variable", (false, f21));
   (Rule "type_def", (false, f25));
   (Rule "predicate@init", (false, f43));
   (Rule "predicate", (false, f19));
   (r6, (false, f20))].
Definition problem_past : list (list bsym) :=
  [[];
   [BT "LPAR"];
   [BN (Rule "problem")];
   [BT "DEFINE"; BT "LPAR"];
   [BN (Rule "problem_def"); BT "DEFINE"; BT "LPAR"];
   [BT "LPAR"; BT "DEFINE"; BT "LPAR"];
   [BN (Rule "problem_domain"); BN (Rule "problem_def"); BT "DEFINE"; BT "LPAR"];
   [BT "LPAR"; BN (Rule "problem_def"); BT "DEFINE"; BT "LPAR"];
   [BT "PROBLEM"; BT "LPAR"; BT "DEFINE"; BT "LPAR"];
   [BN (Rule "requirements"); BN (Rule "problem_domain"); BN (Rule "problem_def"); BT "DEFINE"; BT "LPAR"];
   [BN (Rule "init"); BN (Rule "problem_domain"); BN (Rule "problem_def"); BT "DEFINE"; BT "LPAR"];
   [BT "LPAR"; BN (Rule "problem_domain"); BN (Rule "problem_def"); BT "DEFINE"; BT "LPAR"];
   [BN (Rule "objects"); BN (Rule "problem_domain"); BN (Rule "problem_def"); BT "DEFINE"; BT "LPAR"];
   [BT "DOMAIN_P"; BT "LPAR"; BN (Rule "problem_def"); BT "DEFINE"; BT "LPAR"];
   [BT "NAME"; BT "PROBLEM"; BT "LPAR"; BT "DEFINE"; BT "LPAR"];
   [BN (Rule "objects"); BN (Rule "requirements"); BN (Rule "problem_domain"); BN (Rule "problem_def"); BT "DEFINE"; BT "LPAR"];
   [BT "LPAR"; BN (Rule "requirements"); BN (Rule "problem_domain"); BN (Rule "problem_def"); BT "DEFINE"; BT "LPAR"];
   [BN (Rule "init"); BN (Rule "requirements"); BN (Rule "problem_domain"); BN (Rule "problem_def"); BT "DEFINE"; BT "LPAR"];
   [BN (Rule "goal"); BN (Rule "init"); BN (Rule "problem_domain"); BN (Rule "problem_def"); BT "DEFINE"; BT "LPAR"];
   [BT "LPAR"; BN (Rule "init")];
   [BT "REQUIREMENTS"; BT "LPAR"; BN (Rule "problem_domain"); BN (Rule "problem_def"); BT "DEFINE"; BT "LPAR"];
   [BT "OBJECTS"; BT "LPAR"];
   [BT "INIT"; BT "LPAR"];
   [BN (Rule "init"); BN (Rule "objects"); BN (Rule "problem_domain"); BN (Rule "problem_def"); BT "DEFINE"; BT "LPAR"];
   [BT "LPAR"; BN (Rule "objects")];
   [BT "NAME"; BT "DOMAIN_P"; BT "LPAR"; BN (Rule "problem_def"); BT "DEFINE"; BT "LPAR"];
   [BT "RPAR"; BT "NAME"; BT "PROBLEM"; BT "LPAR"; BT "DEFINE"; BT "LPAR"];
   [BN (Rule "init"); BN (Rule "objects"); BN (Rule "requirements"); BN (Rule "problem_domain"); BN (Rule "problem_def"); BT "DEFINE"; BT "LPAR"];
   [BN (Rule "goal"); BN (Rule "init"); BN (Rule "requirements"); BN (Rule "problem_domain"); BN (Rule "problem_def"); BT "DEFINE"; BT "LPAR"];
   [BT "LPAR"; BN (Rule "goal"); BN (Rule "init")];
   [BN (Rule "metric_spec"); BN (Rule "goal"); BN (Rule "init"); BN (Rule "problem_domain"); BN (Rule "problem_def"); BT "DEFINE"; BT "LPAR"];
   [BT "RPAR"; BN (Rule "goal"); BN (Rule "init"); BN (Rule "problem_domain"); BN (Rule "problem_def"); BT "DEFINE"; BT "LPAR"];
   [BT "GOAL"; BT "LPAR"; BN (Rule "init")];
   [BT "TYPING"];
   [BT "NUMERIC_FLUENTS"];
   [BT "UNIVERSAL_PRECONDITIONS"];
   [BT "EQUALITY"];
   [BN (Rule "require_key"); BT "REQUIREMENTS"; BT "LPAR"; BN (Rule "problem_domain"); BN (Rule "problem_def"); BT "DEFINE"; BT "LPAR"];
   [BT "QUANTIFIED_PRECONDITIONS"];
   [BN (r15); BT "REQUIREMENTS"; BT "LPAR"; BN (Rule "problem_domain"); BN (Rule "problem_def"); BT "DEFINE"; BT "LPAR"];
   [BT "NON_DETERMINISTIC"];
   [BT "ACTION_COSTS"];
   [BT "NEG_PRECONDITION"];
   [BT "DERIVED_PREDICATES"];
   [BT "DIS_PRECONDITION"];
   [BT "EXISTENTIAL_PRECONDITIONS"];
   [BT "STRIPS"];
   [BT "CONDITIONAL_EFFECTS"];
   [BT "FLUENTS"];
   [BT "ADL"];
   [BN (r14); BT "OBJECTS"; BT "LPAR"];
   [BN (r13); BT "OBJECTS"; BT "LPAR"];
   [BT "NAME"];
   [BN (Rule "typed_list_name"); BT "OBJECTS"; BT "LPAR"];
   [BN (Rule "init_el"); BT "INIT"; BT "LPAR"];
   [BN (Rule "literal_name")];
   [BN (Rule "atomic_formula_name")];
   [BN (r18); BT "INIT"; BT "LPAR"];
   [BT "LPAR"];
   [BT "RPAR"; BT "INIT"; BT "LPAR"];
   [BN (Rule "goal"); BN (Rule "init"); BN (Rule "objects"); BN (Rule "problem_domain"); BN (Rule "problem_def"); BT "DEFINE"; BT "LPAR"];
   [BT "RPAR"; BT "NAME"; BT "DOMAIN_P"; BT "LPAR"; BN (Rule "problem_def"); BT "DEFINE"; BT "LPAR"];
   [BN (Rule "goal"); BN (Rule "init"); BN (Rule "objects"); BN (Rule "requirements"); BN (Rule "problem_domain"); BN (Rule "problem_def"); BT "DEFINE"; BT "LPAR"];
   [BN (Rule "metric_spec"); BN (Rule "goal"); BN (Rule "init"); BN (Rule "requirements"); BN (Rule "problem_domain"); BN (Rule "problem_def"); BT "DEFINE"; BT "LPAR"];
   [BT "RPAR"; BN (Rule "goal"); BN (Rule "init"); BN (Rule "requirements"); BN (Rule "problem_domain"); BN (Rule "problem_def"); BT "DEFINE"; BT "LPAR"];
   [BT "METRIC"; BT "LPAR"; BN (Rule "goal"); BN (Rule "init")];
   [BT "RPAR"; BN (Rule "metric_spec"); BN (Rule "goal"); BN (Rule "init"); BN (Rule "problem_domain"); BN (Rule "problem_def"); BT "DEFINE"; BT "LPAR"];
   [BN (Rule "atomic_formula_term")];
   [BT "LPAR"];
   [BN (Rule "gd"); BT "GOAL"; BT "LPAR"; BN (Rule "init")];
   [BN (Rule "require_key"); BN (r15); BT "REQUIREMENTS"; BT "LPAR"; BN (Rule "problem_domain"); BN (Rule "problem_def"); BT "DEFINE"; BT "LPAR"];
   [BT "RPAR"; BN (r15); BT "REQUIREMENTS"; BT "LPAR"; BN (Rule "problem_domain"); BN (Rule "problem_def"); BT "DEFINE"; BT "LPAR"];
   [BN (r13); BN (r14); BT "OBJECTS"; BT "LPAR"];
   [BT "NAME"; BN (r13)];
   [BT "TYPE_SEP"; BN (r13); BT "OBJECTS"; BT "LPAR"];
   [BT "RPAR"; BN (Rule "typed_list_name"); BT "OBJECTS"; BT "LPAR"];
   [BN (Rule "init_el"); BN (r18); BT "INIT"; BT "LPAR"];
   [BT "RPAR"; BN (r18); BT "INIT"; BT "LPAR"];
   [BT "NOT"; BT "LPAR"];
   [BN (Rule "predicate"); BT "LPAR"];
   [BT "NAME"; BT "LPAR"];
   [BT "EQUAL_OP"; BT "LPAR"];
   [BT "RPAR"; BN (Rule "goal"); BN (Rule "init"); BN (Rule "objects"); BN (Rule "problem_domain"); BN (Rule "problem_def"); BT "DEFINE"; BT "LPAR"];
   [BN (Rule "metric_spec"); BN (Rule "goal"); BN (Rule "init"); BN (Rule "objects"); BN (Rule "problem_domain"); BN (Rule "problem_def"); BT "DEFINE"; BT "LPAR"];
   [BN (Rule "metric_spec"); BN (Rule "goal"); BN (Rule "init"); BN (Rule "objects"); BN (Rule "requirements"); BN (Rule "problem_domain"); BN (Rule "problem_def"); BT "DEFINE"; BT "LPAR"];
   [BT "RPAR"; BN (Rule "goal"); BN (Rule "init"); BN (Rule "objects"); BN (Rule "requirements"); BN (Rule "problem_domain"); BN (Rule "problem_def"); BT "DEFINE"; BT "LPAR"];
   [BT "RPAR"; BN (Rule "metric_spec"); BN (Rule "goal"); BN (Rule "init"); BN (Rule "requirements"); BN (Rule "problem_domain"); BN (Rule "problem_def"); BT "DEFINE"; BT "LPAR"];
   [BT "MINIMIZE"; BT "METRIC"; BT "LPAR"; BN (Rule "goal"); BN (Rule "init")];
   [BN (Rule "optimization"); BT "METRIC"; BT "LPAR"; BN (Rule "goal"); BN (Rule "init")];
   [BT "MAXIMIZE"; BT "METRIC"; BT "LPAR"; BN (Rule "goal"); BN (Rule "init")];
   [BT "FORALL"; BT "LPAR"];
   [BT "NOT"; BT "LPAR"];
   [BN (Rule "binary_comp"); BT "LPAR"];
   [BT "AND"; BT "LPAR"];
   [BT "OR"; BT "LPAR"];
   [BN (Rule "predicate"); BT "LPAR"];
   [BT "EXISTS"; BT "LPAR"];
   [BT "IMPLY"; BT "LPAR"];
   [BT "EQUAL_OP"; BT "LPAR"];
   [BT "LESSER_OP"; BT "LPAR"];
   [BT "LESSER_EQUAL_OP"; BT "LPAR"];
   [BT "GREATER_OP"; BT "LPAR"];
   [BT "GREATER_EQUAL_OP"; BT "LPAR"];
   [BT "RPAR"; BN (Rule "gd"); BT "GOAL"; BT "LPAR"; BN (Rule "init")];
   [BT "TYPE_SEP"; BN (r13); BN (r14); BT "OBJECTS"; BT "LPAR"];
   [BN (Rule "primitive_type"); BT "TYPE_SEP"; BN (r13); BT "OBJECTS"; BT "LPAR"];
   [BT "NAME"];
   [BT "OBJECT"];
   [BT "LPAR"; BT "NOT"; BT "LPAR"];
   [BN (Rule "atomic_formula_name"); BT "NOT"; BT "LPAR"];
   [BN (r13); BN (Rule "predicate"); BT "LPAR"];
   [BT "RPAR"; BN (Rule "predicate"); BT "LPAR"];
   [BN (Rule "basic_function_term"); BT "EQUAL_OP"; BT "LPAR"];
   [BT "LPAR"; BT "EQUAL_OP"; BT "LPAR"];
   [BT "NAME"];
   [BT "RPAR"; BN (Rule "metric_spec"); BN (Rule "goal"); BN (Rule "init"); BN (Rule "objects"); BN (Rule "problem_domain"); BN (Rule "problem_def"); BT "DEFINE"; BT "LPAR"];
   [BT "RPAR"; BN (Rule "metric_spec"); BN (Rule "goal"); BN (Rule "init"); BN (Rule "objects"); BN (Rule "requirements"); BN (Rule "problem_domain"); BN (Rule "problem_def"); BT "DEFINE"; BT "LPAR"];
   [BT "LPAR"];
   [BN (Rule "metric_f_exp"); BN (Rule "optimization"); BT "METRIC"; BT "LPAR"; BN (Rule "goal"); BN (Rule "init")];
   [BN (Rule "basic_function_term")];
   [BT "NUMBER"];
   [BT "LPAR"; BT "FORALL"; BT "LPAR"];
   [BN (Rule "gd"); BT "NOT"; BT "LPAR"];
   [BT "NAME"];
   [BT "LPAR"];
   [BT "NUMBER"];
   [BN (Rule "f_head")];
   [BN (Rule "f_exp"); BN (Rule "binary_comp"); BT "LPAR"];
   [BN (Rule "num_literal")];
   [BN (Rule "gd")];
   [BN (r1); BT "AND"; BT "LPAR"];
   [BT "RPAR"; BT "AND"; BT "LPAR"];
   [BT "RPAR"; BT "OR"; BT "LPAR"];
   [BN (r1); BT "OR"; BT "LPAR"];
   [BT "NAME"];
   [BN (r3); BN (Rule "predicate"); BT "LPAR"];
   [BN (Rule "constant")];
   [BN (Rule "variable")];
   [BT "?"];
   [BN (Rule "term")];
   [BT "RPAR"; BN (Rule "predicate"); BT "LPAR"];
   [BT "LPAR"; BT "EXISTS"; BT "LPAR"];
   [BN (Rule "gd"); BT "IMPLY"; BT "LPAR"];
   [BN (Rule "term"); BT "EQUAL_OP"; BT "LPAR"];
   [BN (Rule "primitive_type"); BT "TYPE_SEP"; BN (r13); BN (r14); BT "OBJECTS"; BT "LPAR"];
   [BT "RPAR"; BN (Rule "atomic_formula_name"); BT "NOT"; BT "LPAR"];
   [BT "RPAR"; BN (r13); BN (Rule "predicate"); BT "LPAR"];
   [BN (Rule "num_literal"); BN (Rule "basic_function_term"); BT "EQUAL_OP"; BT "LPAR"];
   [BT "NAME"; BT "LPAR"];
   [BN (Rule "multi_op"); BT "LPAR"];
   [BT "MINUS"; BT "LPAR"];
   [BT "DIVIDE"; BT "LPAR"];
   [BT "TIMES"; BT "LPAR"];
   [BT "PLUS"; BT "LPAR"];
   [BN (Rule "binary_op"); BT "LPAR"];
   [BT "RPAR"; BN (Rule "metric_f_exp"); BN (Rule "optimization"); BT "METRIC"; BT "LPAR"; BN (Rule "goal"); BN (Rule "init")];
   [BN (r5); BT "LPAR"];
   [BN (r4); BT "LPAR"];
   [BN (Rule "typed_list_variable"); BT "LPAR"; BT "FORALL"; BT "LPAR"];
   [BN (Rule "variable")];
   [BT "RPAR"; BN (Rule "gd"); BT "NOT"; BT "LPAR"];
   [BN (Rule "multi_op"); BT "LPAR"];
   [BT "MINUS"; BT "LPAR"];
   [BT "NAME"; BT "LPAR"];
   [BN (Rule "binary_op"); BT "LPAR"];
   [BN (Rule "f_exp"); BN (Rule "f_exp"); BN (Rule "binary_comp"); BT "LPAR"];
   [BT "RPAR"; BN (r1); BT "AND"; BT "LPAR"];
   [BN (Rule "gd"); BN (r1)];
   [BT "RPAR"; BN (r1); BT "OR"; BT "LPAR"];
   [BT "RPAR"; BN (r3); BN (Rule "predicate"); BT "LPAR"];
   [BN (Rule "term"); BN (r3)];
   [BT "NAME"; BT "?"];
   [BN (Rule "typed_list_variable"); BT "LPAR"; BT "EXISTS"; BT "LPAR"];
   [BN (Rule "gd"); BN (Rule "gd"); BT "IMPLY"; BT "LPAR"];
   [BN (Rule "term"); BN (Rule "term"); BT "EQUAL_OP"; BT "LPAR"];
   [BT "RPAR"; BN (Rule "num_literal"); BN (Rule "basic_function_term"); BT "EQUAL_OP"; BT "LPAR"];
   [BN (r13); BT "NAME"; BT "LPAR"];
   [BT "RPAR"; BT "NAME"; BT "LPAR"];
   [BN (Rule "metric_f_exp"); BN (Rule "multi_op"); BT "LPAR"];
   [BN (Rule "metric_f_exp"); BT "MINUS"; BT "LPAR"];
   [BN (Rule "metric_f_exp"); BN (Rule "binary_op"); BT "LPAR"];
   [BN (r4); BN (r5); BT "LPAR"];
   [BT "TYPE_SEP"; BN (r4); BT "LPAR"];
   [BN (Rule "variable"); BN (r4)];
   [BT "RPAR"; BN (Rule "typed_list_variable"); BT "LPAR"; BT "FORALL"; BT "LPAR"];
   [BN (Rule "f_exp"); BN (Rule "multi_op"); BT "LPAR"];
   [BN (Rule "f_exp"); BT "MINUS"; BT "LPAR"];
   [BT "RPAR"; BT "NAME"; BT "LPAR"];
   [BN (r3); BT "NAME"; BT "LPAR"];
   [BN (Rule "f_exp"); BN (Rule "binary_op"); BT "LPAR"];
   [BT "RPAR"; BN (Rule "f_exp"); BN (Rule "f_exp"); BN (Rule "binary_comp"); BT "LPAR"];
   [BT "RPAR"; BN (Rule "typed_list_variable"); BT "LPAR"; BT "EXISTS"; BT "LPAR"];
   [BT "RPAR"; BN (Rule "gd"); BN (Rule "gd"); BT "IMPLY"; BT "LPAR"];
   [BT "RPAR"; BN (Rule "term"); BN (Rule "term"); BT "EQUAL_OP"; BT "LPAR"];
   [BT "RPAR"; BN (r13); BT "NAME"; BT "LPAR"];
   [BN (Rule "metric_f_exp"); BN (Rule "metric_f_exp"); BN (Rule "multi_op"); BT "LPAR"];
   [BN (r17); BN (Rule "metric_f_exp"); BN (Rule "multi_op"); BT "LPAR"];
   [BT "RPAR"; BN (Rule "metric_f_exp"); BT "MINUS"; BT "LPAR"];
   [BN (Rule "metric_f_exp"); BN (Rule "metric_f_exp"); BN (Rule "binary_op"); BT "LPAR"];
   [BT "TYPE_SEP"; BN (r4); BN (r5); BT "LPAR"];
   [BT "LPAR"; BT "TYPE_SEP"; BN (r4)];
   [BN (Rule "primitive_type"); BT "TYPE_SEP"; BN (r4)];
   [BN (Rule "type_def"); BT "TYPE_SEP"; BN (r4); BT "LPAR"];
   [BN (Rule "gd"); BT "RPAR"; BN (Rule "typed_list_variable"); BT "LPAR"; BT "FORALL"; BT "LPAR"];
   [BN (Rule "f_exp"); BN (Rule "f_exp"); BN (Rule "multi_op"); BT "LPAR"];
   [BN (r2); BN (Rule "f_exp"); BN (Rule "multi_op"); BT "LPAR"];
   [BT "RPAR"; BN (Rule "f_exp"); BT "MINUS"; BT "LPAR"];
   [BT "RPAR"; BN (r3); BT "NAME"; BT "LPAR"];
   [BN (Rule "f_exp"); BN (Rule "f_exp"); BN (Rule "binary_op"); BT "LPAR"];
   [BN (Rule "gd"); BT "RPAR"; BN (Rule "typed_list_variable"); BT "LPAR"; BT "EXISTS"; BT "LPAR"];
   [BN (Rule "metric_f_exp"); BN (r17); BN (Rule "metric_f_exp"); BN (Rule "multi_op"); BT "LPAR"];
   [BT "RPAR"; BN (r17); BN (Rule "metric_f_exp"); BN (Rule "multi_op"); BT "LPAR"];
   [BT "RPAR"; BN (Rule "metric_f_exp"); BN (Rule "metric_f_exp"); BN (Rule "binary_op"); BT "LPAR"];
   [BN (Rule "type_def"); BT "TYPE_SEP"; BN (r4); BN (r5); BT "LPAR"];
   [BT "EITHER"; BT "LPAR"; BT "TYPE_SEP"; BN (r4)];
   [BT "RPAR"; BN (Rule "gd"); BT "RPAR"; BN (Rule "typed_list_variable"); BT "LPAR"; BT "FORALL"; BT "LPAR"];
   [BN (Rule "f_exp"); BN (r2); BN (Rule "f_exp"); BN (Rule "multi_op"); BT "LPAR"];
   [BT "RPAR"; BN (r2); BN (Rule "f_exp"); BN (Rule "multi_op"); BT "LPAR"];
   [BT "RPAR"; BN (Rule "f_exp"); BN (Rule "f_exp"); BN (Rule "binary_op"); BT "LPAR"];
   [BT "RPAR"; BN (Rule "gd"); BT "RPAR"; BN (Rule "typed_list_variable"); BT "LPAR"; BT "EXISTS"; BT "LPAR"];
   [BN (Rule "primitive_type"); BT "EITHER"; BT "LPAR"; BT "TYPE_SEP"; BN (r4)];
   [BN (r6); BT "EITHER"; BT "LPAR"; BT "TYPE_SEP"; BN (r4)];
   [BN (Rule "primitive_type"); BN (r6); BT "EITHER"; BT "LPAR"; BT "TYPE_SEP"; BN (r4)];
   [BT "RPAR"; BN (r6); BT "EITHER"; BT "LPAR"; BT "TYPE_SEP"; BN (r4)]].
Definition problem_names : list (list string) :=
  [f35;
   f35;
   f35;
   f35;
   f35;
   f35;
   f35;
   f35;
   f35;
   f35;
   f35;
   f35;
   f35;
   f35;
   f35;
   f35;
   f35;
   f35;
   f35;
   f35;
   f35;
   f35;
   f35;
   f35;
   f35;
   f35;
   f35;
   f35;
   f35;
   f35;
   f35;
   f35;
   f35;
   f35;
   f35;
   f35;
   f35;
   f35;
   f35;
   f35;
   f35;
   f35;
   f35;
   f35;
   f35;
   f35;
   f35;
   f35;
   f35;
   f35;
   f36;
   f35;
   f35;
   f35;
   f35;
   f35;
   f35;
   f35;
   f44;
   f35;
   f35;
   f35;
   f35;
   f35;
   f35;
   f35;
   f35;
   f35;
   f37;
   f35;
   f35;
   f35;
   f35;
   f35;
   f36;
   f35;
   f35;
   f35;
   f35;
   f35;
   f35;
   f35;
   f35;
   f35;
   f35;
   f35;
   f35;
   f35;
   f35;
   f35;
   f35;
   f35;
   f35;
   f35;
   f35;
   f35;
   f35;
   f35;
   f35;
   f35;
   f35;
   f35;
   f35;
   f35;
   f36;
   f36;
   f36;
   f36;
   f35;
   f35;
   f35;
   f35;
   f35;
   f35;
   f35;
   f35;
   f35;
   f35;
   f35;
   f35;
   f35;
   f35;
   f35;
   f35;
   f35;
   f35;
   f35;
   f35;
   f35;
   f35;
   f35;
   f35;
   f35;
   f35;
   f35;
   f35;
   f35;
   f35;
   f35;
   f35;
   f35;
   f35;
   f35;
   f35;
   f36;
   f35;
   f35;
   f35;
   f35;
   f35;
   f35;
   f35;
   f35;
   f35;
   f35;
   f35;
   f35;
   f35;
   f35;
   f35;
   f35;
   f35;
   f35;
   f35;
   f35;
   f35;
   f35;
   f35;
   f35;
   f35;
   f35;
   f35;
   f35;
   f35;
   f35;
   f35;
   f35;
   f35;
   f35;
   f35;
   f35;
   f35;
   f36;
   f35;
   f35;
   f35;
   f35;
   f35;
   f35;
   f35;
   f35;
   f35;
   f35;
   f35;
   f35;
   f35;
   f35;
   f35;
   f35;
   f36;
   f35;
   f35;
   f35;
   f35;
   f35;
   f35;
   f35;
   f35;
   f35;
   f35;
   f35;
   f35;
   f35;
   f35;
   f36;
   f35;
   f35;
   f35;
   f35;
   f35;
   f36;
   f36;
   f36;
   f35].
Definition problem_rank : list (nt * (nat * nat)) :=
  [(r2, (97, 0));
   (r1, (98, 0));
   (r18, (97, 0));
   (r17, (97, 0));
   (r6, (98, 0));
   (r15, (98, 0));
   (r3, (97, 0));
   (r4, (99, 0));
   (r5, (100, 0));
   (r14, (100, 0));
   (r13, (99, 0));
   (Rule "atomic_formula_name", (100, 0));
   (Rule "atomic_formula_term", (100, 0));
   (Rule "basic_function_term", (99, 0));
   (Rule "binary_comp", (99, 0));
   (Rule "binary_op", (99, 0));
   (Rule "constant", (99, 0));
   (Rule "f_exp", (98, 0));
   (Rule "f_head", (99, 0));
   (Rule "gd", (99, 0));
   (Rule "goal", (100, 0));
   (Rule "init", (100, 0));
   (Rule "init_el", (98, 0));
   (Rule "literal_name", (99, 0));
   (Rule "metric_f_exp", (98, 0));
   (Rule "metric_spec", (100, 0));
   (Rule "multi_op", (99, 0));
   (Rule "num_literal", (99, 0));
   (Rule "objects", (100, 0));
   (Rule "optimization", (99, 0));
   (Rule "predicate", (99, 0));
   (Rule "primitive_type", (99, 0));
   (Rule "problem", (100, 0));
   (Rule "problem_def", (100, 0));
   (Rule "problem_domain", (100, 0));
   (Rule "require_key", (99, 0));
   (Rule "requirements", (100, 0));
   (Rule "term", (98, 0));
   (Rule "type_def", (98, 0));
   (Rule "typed_list_name", (19, 0));
   (Rule "typed_list_variable", (19, 0));
   (Rule "variable", (100, 0))].
Definition plan_follow : list (list (nt * list string)) :=
  [[(Rule "ground_action", f45); (Rule "plan", f0); (r19, f45)];
   [(Rule "ground_action", f45)];
   [];
   [];
   [(Rule "predicate", f16)];
   [];
   [(r13, f16)];
   [];
   [];
   [];
   [];
   [];
   []].
Definition plan_first : list (nt * (bool * list string)) :=
  [(Rule "plan", (true, f2));
   (r19, (false, f2));
   (Rule "ground_action", (false, f2));
   (Rule "predicate", (false, f19));
   (r13, (false, f19))].
Definition plan_past : list (list bsym) :=
  [[];
   [BN (r19)];
   [BN (Rule "plan")];
   [BN (Rule "ground_action")];
   [BT "LPAR"];
   [BN (Rule "ground_action"); BN (r19)];
   [BN (Rule "predicate"); BT "LPAR"];
   [BT "NAME"; BT "LPAR"];
   [BN (r13); BN (Rule "predicate"); BT "LPAR"];
   [BT "RPAR"; BN (Rule "predicate"); BT "LPAR"];
   [BT "NAME"; BN (Rule "predicate"); BT "LPAR"];
   [BT "RPAR"; BN (r13); BN (Rule "predicate"); BT "LPAR"];
   [BT "NAME"; BN (r13); BN (Rule "predicate"); BT "LPAR"]].
Definition plan_names : list (list string) :=
  [f35;
   f35;
   f35;
   f35;
   f35;
   f35;
   f35;
   f35;
   f35;
   f35;
   f35;
   f35;
   f35].
Definition plan_rank : list (nt * (nat * nat)) :=
  [(r19, (99, 0));
   (r13, (99, 0));
   (Rule "ground_action", (100, 0));
   (Rule "plan", (19, 0));
   (Rule "predicate", (99, 0))].
