(** What is needed to check that every text that the parser has begun to read can be finished: for
    each state and rule that can begin there, productions in which the rule comes at this point (how
    many symbols come before it, a depth, the rules and the numbers of their productions); for each
    rule, the production with which it is finished; the states before each state.  Written by
    tools/lalr_coq.py. *)
From Coq Require Import String List PArith.
From Verif Require Import Spec_Grammar Lark.
Import ListNotations.
Open Scope string_scope.
Open Scope list_scope.

Definition r0 : nt := Rep (N "structure_def").
Definition r1 : nt := Rep (N "gd").
Definition r2 : nt := Rep (N "f_exp").
Definition r3 : nt := Rep (N "term").
Definition r4 : nt := Rep (N "variable").
Definition r5 : nt := Rep (Seq [Plus (N "variable"); T "TYPE_SEP"; N "type_def"]).
Definition r6 : nt := Rep (N "primitive_type").
Definition r7 : nt := Rep (N "c_effect").
Definition r8 : nt := Rep (N "effect").
Definition r9 : nt := Rep (N "p_effect@p").
Definition r10 : nt := Rep (N "atomic_function_skeleton").
Definition r11 : nt := Rep (Seq [Plus (N "atomic_function_skeleton"); T "TYPE_SEP"; N "f_type_def"]).
Definition r12 : nt := Rep (N "atomic_formula_skeleton").
Definition r13 : nt := Rep (T "NAME").
Definition r14 : nt := Rep (Seq [Plus (T "NAME"); T "TYPE_SEP"; N "primitive_type"]).
Definition r15 : nt := Rep (N "require_key").
Definition r16 : nt := Rep (N "metric_f_exp").
Definition r17 : nt := Rep (N "init_el").
Definition r18 : nt := Rep (N "ground_action").
Definition domain_context : list (list (nt * (nat * nat * list (nt * nat)))) :=
  [[];
   [];
   [];
   [(Rule "domain_def", (2, 0, [(Rule "domain", 0)]))];
   [(Rule "action_def", (0, 2, [(Rule "structure_def", 0)])); (Rule "constants", (3, 0, [(Rule "domain", 48)])); (Rule "derived_predicates", (0, 2, [(Rule "structure_def", 1)])); (Rule "functions", (3, 0, [(Rule "domain", 60)])); (Rule "predicates", (3, 0, [(Rule "domain", 56)])); (Rule "requirements", (3, 0, [(Rule "domain", 0)])); (Rule "structure_def", (0, 1, [(r0, 0)])); (Rule "types", (3, 0, [(Rule "domain", 32)])); (r0, (3, 0, [(Rule "domain", 62)]))];
   [];
   [];
   [(Rule "action_def", (0, 2, [(Rule "structure_def", 0)])); (Rule "constants", (4, 0, [(Rule "domain", 16)])); (Rule "derived_predicates", (0, 2, [(Rule "structure_def", 1)])); (Rule "functions", (4, 0, [(Rule "domain", 28)])); (Rule "predicates", (4, 0, [(Rule "domain", 24)])); (Rule "structure_def", (0, 1, [(r0, 0)])); (Rule "types", (4, 0, [(Rule "domain", 0)])); (r0, (4, 0, [(Rule "domain", 30)]))];
   [(Rule "action_def", (0, 2, [(Rule "structure_def", 0)])); (Rule "derived_predicates", (0, 2, [(Rule "structure_def", 1)])); (Rule "functions", (4, 0, [(Rule "domain", 52)])); (Rule "predicates", (4, 0, [(Rule "domain", 48)])); (Rule "structure_def", (0, 1, [(r0, 0)])); (r0, (4, 0, [(Rule "domain", 54)]))];
   [(Rule "action_def", (0, 2, [(Rule "structure_def", 0)])); (Rule "derived_predicates", (0, 2, [(Rule "structure_def", 1)])); (Rule "structure_def", (0, 1, [(r0, 0)])); (r0, (4, 0, [(Rule "domain", 60)]))];
   [];
   [(Rule "action_def", (0, 2, [(Rule "structure_def", 0)])); (Rule "constants", (4, 0, [(Rule "domain", 32)])); (Rule "derived_predicates", (0, 2, [(Rule "structure_def", 1)])); (Rule "functions", (4, 0, [(Rule "domain", 44)])); (Rule "predicates", (4, 0, [(Rule "domain", 40)])); (Rule "structure_def", (0, 1, [(r0, 0)])); (r0, (4, 0, [(Rule "domain", 46)]))];
   [(Rule "action_def", (0, 1, [(Rule "structure_def", 0)])); (Rule "derived_predicates", (0, 1, [(Rule "structure_def", 1)])); (Rule "structure_def", (1, 0, [(r0, 1)]))];
   [];
   [(Rule "action_def", (0, 2, [(Rule "structure_def", 0)])); (Rule "derived_predicates", (0, 2, [(Rule "structure_def", 1)])); (Rule "functions", (4, 0, [(Rule "domain", 56)])); (Rule "structure_def", (0, 1, [(r0, 0)])); (r0, (4, 0, [(Rule "domain", 58)]))];
   [];
   [];
   [];
   [(Rule "typed_list_name", (2, 0, [(Rule "constants", 0)])); (r13, (0, 1, [(Rule "typed_list_name", 0)])); (r14, (0, 1, [(Rule "typed_list_name", 3)]))];
   [(Rule "atomic_function_skeleton", (0, 2, [(r10, 0)])); (Rule "f_typed_list_atomic_function_skeleton", (2, 0, [(Rule "functions", 0)])); (r10, (0, 1, [(Rule "f_typed_list_atomic_function_skeleton", 0)])); (r11, (0, 1, [(Rule "f_typed_list_atomic_function_skeleton", 1)]))];
   [(Rule "require_key", (0, 1, [(r15, 0)])); (r15, (2, 0, [(Rule "requirements", 0)]))];
   [(Rule "atomic_formula_skeleton", (0, 1, [(r12, 0)])); (r12, (2, 0, [(Rule "predicates", 0)]))];
   [];
   [(Rule "typed_list_name", (2, 0, [(Rule "types", 0)])); (r13, (0, 1, [(Rule "typed_list_name", 0)])); (r14, (0, 1, [(Rule "typed_list_name", 3)]))];
   [(Rule "atomic_formula_skeleton", (2, 0, [(Rule "derived_predicates", 0)]))];
   [(Rule "action_def", (0, 2, [(Rule "structure_def", 0)])); (Rule "derived_predicates", (0, 2, [(Rule "structure_def", 1)])); (Rule "functions", (5, 0, [(Rule "domain", 20)])); (Rule "predicates", (5, 0, [(Rule "domain", 16)])); (Rule "structure_def", (0, 1, [(r0, 0)])); (r0, (5, 0, [(Rule "domain", 22)]))];
   [(Rule "action_def", (0, 2, [(Rule "structure_def", 0)])); (Rule "constants", (5, 0, [(Rule "domain", 0)])); (Rule "derived_predicates", (0, 2, [(Rule "structure_def", 1)])); (Rule "functions", (5, 0, [(Rule "domain", 12)])); (Rule "predicates", (5, 0, [(Rule "domain", 8)])); (Rule "structure_def", (0, 1, [(r0, 0)])); (r0, (5, 0, [(Rule "domain", 14)]))];
   [];
   [(Rule "action_def", (0, 2, [(Rule "structure_def", 0)])); (Rule "derived_predicates", (0, 2, [(Rule "structure_def", 1)])); (Rule "functions", (5, 0, [(Rule "domain", 24)])); (Rule "structure_def", (0, 1, [(r0, 0)])); (r0, (5, 0, [(Rule "domain", 26)]))];
   [(Rule "action_def", (0, 2, [(Rule "structure_def", 0)])); (Rule "derived_predicates", (0, 2, [(Rule "structure_def", 1)])); (Rule "structure_def", (0, 1, [(r0, 0)])); (r0, (5, 0, [(Rule "domain", 28)]))];
   [(Rule "action_def", (0, 1, [(Rule "structure_def", 0)])); (Rule "derived_predicates", (0, 1, [(Rule "structure_def", 1)])); (Rule "structure_def", (1, 0, [(r0, 1)]))];
   [];
   [(Rule "action_def", (0, 2, [(Rule "structure_def", 0)])); (Rule "derived_predicates", (0, 2, [(Rule "structure_def", 1)])); (Rule "functions", (5, 0, [(Rule "domain", 48)])); (Rule "structure_def", (0, 1, [(r0, 0)])); (r0, (5, 0, [(Rule "domain", 50)]))];
   [];
   [];
   [(Rule "action_def", (0, 2, [(Rule "structure_def", 0)])); (Rule "derived_predicates", (0, 2, [(Rule "structure_def", 1)])); (Rule "structure_def", (0, 1, [(r0, 0)])); (r0, (5, 0, [(Rule "domain", 52)]))];
   [(Rule "action_def", (0, 1, [(Rule "structure_def", 0)])); (Rule "derived_predicates", (0, 1, [(Rule "structure_def", 1)])); (Rule "structure_def", (1, 0, [(r0, 1)]))];
   [(Rule "action_def", (0, 1, [(Rule "structure_def", 0)])); (Rule "derived_predicates", (0, 1, [(Rule "structure_def", 1)])); (Rule "structure_def", (1, 0, [(r0, 1)]))];
   [];
   [];
   [(Rule "action_def", (0, 2, [(Rule "structure_def", 0)])); (Rule "derived_predicates", (0, 2, [(Rule "structure_def", 1)])); (Rule "structure_def", (0, 1, [(r0, 0)])); (r0, (5, 0, [(Rule "domain", 44)]))];
   [(Rule "action_def", (0, 2, [(Rule "structure_def", 0)])); (Rule "derived_predicates", (0, 2, [(Rule "structure_def", 1)])); (Rule "functions", (5, 0, [(Rule "domain", 36)])); (Rule "predicates", (5, 0, [(Rule "domain", 32)])); (Rule "structure_def", (0, 1, [(r0, 0)])); (r0, (5, 0, [(Rule "domain", 38)]))];
   [(Rule "action_def", (0, 1, [(Rule "structure_def", 0)])); (Rule "derived_predicates", (0, 1, [(Rule "structure_def", 1)])); (Rule "structure_def", (1, 0, [(r0, 1)]))];
   [];
   [];
   [(Rule "action_def", (0, 2, [(Rule "structure_def", 0)])); (Rule "derived_predicates", (0, 2, [(Rule "structure_def", 1)])); (Rule "functions", (5, 0, [(Rule "domain", 40)])); (Rule "structure_def", (0, 1, [(r0, 0)])); (r0, (5, 0, [(Rule "domain", 42)]))];
   [];
   [];
   [(Rule "action_def", (0, 2, [(Rule "structure_def", 0)])); (Rule "derived_predicates", (0, 2, [(Rule "structure_def", 1)])); (Rule "structure_def", (0, 1, [(r0, 0)])); (r0, (5, 0, [(Rule "domain", 56)]))];
   [];
   [];
   [(Rule "action_def", (0, 1, [(Rule "structure_def", 0)])); (Rule "derived_predicates", (0, 1, [(Rule "structure_def", 1)])); (Rule "structure_def", (1, 0, [(r0, 1)]))];
   [];
   [];
   [(r13, (1, 0, [(Rule "typed_list_name", 2); (r14, 1)]))];
   [];
   [];
   [(Rule "atomic_function_skeleton", (1, 0, [(r10, 1)]))];
   [(Rule "atomic_function_skeleton", (0, 1, [(r10, 0)])); (r10, (1, 0, [(Rule "f_typed_list_atomic_function_skeleton", 1); (r11, 1)]))];
   [];
   [];
   [];
   [];
   [];
   [];
   [];
   [];
   [];
   [];
   [];
   [(Rule "require_key", (1, 0, [(r15, 1)]))];
   [];
   [];
   [];
   [];
   [];
   [];
   [];
   [];
   [(Rule "atomic_formula_skeleton", (1, 0, [(r12, 1)]))];
   [];
   [];
   [];
   [];
   [(Rule "atomic_formula_term@gd", (0, 1, [(Rule "gd", 0)])); (Rule "gd", (3, 0, [(Rule "derived_predicates", 0)]))];
   [(Rule "action_def", (0, 2, [(Rule "structure_def", 0)])); (Rule "derived_predicates", (0, 2, [(Rule "structure_def", 1)])); (Rule "functions", (6, 0, [(Rule "domain", 16)])); (Rule "structure_def", (0, 1, [(r0, 0)])); (r0, (6, 0, [(Rule "domain", 18)]))];
   [(Rule "action_def", (0, 2, [(Rule "structure_def", 0)])); (Rule "derived_predicates", (0, 2, [(Rule "structure_def", 1)])); (Rule "structure_def", (0, 1, [(r0, 0)])); (r0, (6, 0, [(Rule "domain", 20)]))];
   [(Rule "action_def", (0, 1, [(Rule "structure_def", 0)])); (Rule "derived_predicates", (0, 1, [(Rule "structure_def", 1)])); (Rule "structure_def", (1, 0, [(r0, 1)]))];
   [];
   [(Rule "action_def", (0, 2, [(Rule "structure_def", 0)])); (Rule "derived_predicates", (0, 2, [(Rule "structure_def", 1)])); (Rule "functions", (6, 0, [(Rule "domain", 8)])); (Rule "structure_def", (0, 1, [(r0, 0)])); (r0, (6, 0, [(Rule "domain", 10)]))];
   [(Rule "action_def", (0, 2, [(Rule "structure_def", 0)])); (Rule "derived_predicates", (0, 2, [(Rule "structure_def", 1)])); (Rule "functions", (6, 0, [(Rule "domain", 4)])); (Rule "predicates", (6, 0, [(Rule "domain", 0)])); (Rule "structure_def", (0, 1, [(r0, 0)])); (r0, (6, 0, [(Rule "domain", 6)]))];
   [(Rule "action_def", (0, 2, [(Rule "structure_def", 0)])); (Rule "derived_predicates", (0, 2, [(Rule "structure_def", 1)])); (Rule "structure_def", (0, 1, [(r0, 0)])); (r0, (6, 0, [(Rule "domain", 12)]))];
   [(Rule "action_def", (0, 1, [(Rule "structure_def", 0)])); (Rule "derived_predicates", (0, 1, [(Rule "structure_def", 1)])); (Rule "structure_def", (1, 0, [(r0, 1)]))];
   [];
   [(Rule "action_def", (0, 2, [(Rule "structure_def", 0)])); (Rule "derived_predicates", (0, 2, [(Rule "structure_def", 1)])); (Rule "structure_def", (0, 1, [(r0, 0)])); (r0, (6, 0, [(Rule "domain", 24)]))];
   [(Rule "action_def", (0, 1, [(Rule "structure_def", 0)])); (Rule "derived_predicates", (0, 1, [(Rule "structure_def", 1)])); (Rule "structure_def", (1, 0, [(r0, 1)]))];
   [];
   [(Rule "action_def", (0, 1, [(Rule "structure_def", 0)])); (Rule "derived_predicates", (0, 1, [(Rule "structure_def", 1)])); (Rule "structure_def", (1, 0, [(r0, 1)]))];
   [];
   [];
   [(Rule "action_def", (0, 1, [(Rule "structure_def", 0)])); (Rule "derived_predicates", (0, 1, [(Rule "structure_def", 1)])); (Rule "structure_def", (1, 0, [(r0, 1)]))];
   [(Rule "action_def", (0, 2, [(Rule "structure_def", 0)])); (Rule "derived_predicates", (0, 2, [(Rule "structure_def", 1)])); (Rule "structure_def", (0, 1, [(r0, 0)])); (r0, (6, 0, [(Rule "domain", 48)]))];
   [];
   [(Rule "action_def", (0, 1, [(Rule "structure_def", 0)])); (Rule "derived_predicates", (0, 1, [(Rule "structure_def", 1)])); (Rule "structure_def", (1, 0, [(r0, 1)]))];
   [];
   [];
   [];
   [(Rule "action_def", (0, 1, [(Rule "structure_def", 0)])); (Rule "derived_predicates", (0, 1, [(Rule "structure_def", 1)])); (Rule "structure_def", (1, 0, [(r0, 1)]))];
   [];
   [(Rule "action_def", (0, 1, [(Rule "structure_def", 0)])); (Rule "derived_predicates", (0, 1, [(Rule "structure_def", 1)])); (Rule "structure_def", (1, 0, [(r0, 1)]))];
   [(Rule "action_def", (0, 2, [(Rule "structure_def", 0)])); (Rule "derived_predicates", (0, 2, [(Rule "structure_def", 1)])); (Rule "structure_def", (0, 1, [(r0, 0)])); (r0, (6, 0, [(Rule "domain", 36)]))];
   [(Rule "action_def", (0, 2, [(Rule "structure_def", 0)])); (Rule "derived_predicates", (0, 2, [(Rule "structure_def", 1)])); (Rule "functions", (6, 0, [(Rule "domain", 32)])); (Rule "structure_def", (0, 1, [(r0, 0)])); (r0, (6, 0, [(Rule "domain", 34)]))];
   [];
   [];
   [(Rule "action_def", (0, 1, [(Rule "structure_def", 0)])); (Rule "derived_predicates", (0, 1, [(Rule "structure_def", 1)])); (Rule "structure_def", (1, 0, [(r0, 1)]))];
   [(Rule "action_def", (0, 2, [(Rule "structure_def", 0)])); (Rule "derived_predicates", (0, 2, [(Rule "structure_def", 1)])); (Rule "structure_def", (0, 1, [(r0, 0)])); (r0, (6, 0, [(Rule "domain", 40)]))];
   [];
   [];
   [(Rule "action_def", (0, 1, [(Rule "structure_def", 0)])); (Rule "derived_predicates", (0, 1, [(Rule "structure_def", 1)])); (Rule "structure_def", (1, 0, [(r0, 1)]))];
   [];
   [];
   [];
   [(Rule "primitive_type", (2, 0, [(r14, 0)]))];
   [];
   [];
   [];
   [(Rule "f_type_def", (2, 0, [(r11, 0)]))];
   [(Rule "atomic_function_skeleton", (1, 0, [(r10, 1)]))];
   [];
   [(Rule "typed_list_variable", (2, 0, [(Rule "atomic_function_skeleton", 0)])); (Rule "variable", (0, 2, [(r4, 0)])); (r4, (0, 1, [(Rule "typed_list_variable", 0)])); (r5, (0, 1, [(Rule "typed_list_variable", 2)]))];
   [];
   [];
   [];
   [];
   [(Rule "typed_list_variable", (2, 0, [(Rule "atomic_formula_skeleton", 0)])); (Rule "variable", (0, 2, [(r4, 0)])); (r4, (0, 1, [(Rule "typed_list_variable", 0)])); (r5, (0, 1, [(Rule "typed_list_variable", 2)]))];
   [(Rule "action_parameters", (4, 0, [(Rule "action_def", 0)]))];
   [];
   [(Rule "binary_comp", (1, 0, [(Rule "gd", 9)])); (Rule "predicate@gd", (1, 0, [(Rule "atomic_formula_term@gd", 0)]))];
   [];
   [];
   [(Rule "action_def", (0, 1, [(Rule "structure_def", 0)])); (Rule "derived_predicates", (0, 1, [(Rule "structure_def", 1)])); (Rule "structure_def", (1, 0, [(r0, 1)]))];
   [(Rule "action_def", (0, 2, [(Rule "structure_def", 0)])); (Rule "derived_predicates", (0, 2, [(Rule "structure_def", 1)])); (Rule "structure_def", (0, 1, [(r0, 0)])); (r0, (7, 0, [(Rule "domain", 16)]))];
   [];
   [(Rule "action_def", (0, 1, [(Rule "structure_def", 0)])); (Rule "derived_predicates", (0, 1, [(Rule "structure_def", 1)])); (Rule "structure_def", (1, 0, [(r0, 1)]))];
   [];
   [];
   [(Rule "action_def", (0, 2, [(Rule "structure_def", 0)])); (Rule "derived_predicates", (0, 2, [(Rule "structure_def", 1)])); (Rule "structure_def", (0, 1, [(r0, 0)])); (r0, (7, 0, [(Rule "domain", 8)]))];
   [(Rule "action_def", (0, 1, [(Rule "structure_def", 0)])); (Rule "derived_predicates", (0, 1, [(Rule "structure_def", 1)])); (Rule "structure_def", (1, 0, [(r0, 1)]))];
   [];
   [(Rule "action_def", (0, 2, [(Rule "structure_def", 0)])); (Rule "derived_predicates", (0, 2, [(Rule "structure_def", 1)])); (Rule "functions", (7, 0, [(Rule "domain", 0)])); (Rule "structure_def", (0, 1, [(r0, 0)])); (r0, (7, 0, [(Rule "domain", 2)]))];
   [(Rule "action_def", (0, 1, [(Rule "structure_def", 0)])); (Rule "derived_predicates", (0, 1, [(Rule "structure_def", 1)])); (Rule "structure_def", (1, 0, [(r0, 1)]))];
   [(Rule "action_def", (0, 2, [(Rule "structure_def", 0)])); (Rule "derived_predicates", (0, 2, [(Rule "structure_def", 1)])); (Rule "structure_def", (0, 1, [(r0, 0)])); (r0, (7, 0, [(Rule "domain", 4)]))];
   [];
   [];
   [(Rule "action_def", (0, 1, [(Rule "structure_def", 0)])); (Rule "derived_predicates", (0, 1, [(Rule "structure_def", 1)])); (Rule "structure_def", (1, 0, [(r0, 1)]))];
   [];
   [(Rule "action_def", (0, 1, [(Rule "structure_def", 0)])); (Rule "derived_predicates", (0, 1, [(Rule "structure_def", 1)])); (Rule "structure_def", (1, 0, [(r0, 1)]))];
   [];
   [];
   [];
   [];
   [];
   [(Rule "action_def", (0, 1, [(Rule "structure_def", 0)])); (Rule "derived_predicates", (0, 1, [(Rule "structure_def", 1)])); (Rule "structure_def", (1, 0, [(r0, 1)]))];
   [];
   [];
   [];
   [(Rule "action_def", (0, 1, [(Rule "structure_def", 0)])); (Rule "derived_predicates", (0, 1, [(Rule "structure_def", 1)])); (Rule "structure_def", (1, 0, [(r0, 1)]))];
   [];
   [(Rule "action_def", (0, 2, [(Rule "structure_def", 0)])); (Rule "derived_predicates", (0, 2, [(Rule "structure_def", 1)])); (Rule "structure_def", (0, 1, [(r0, 0)])); (r0, (7, 0, [(Rule "domain", 32)]))];
   [(Rule "action_def", (0, 1, [(Rule "structure_def", 0)])); (Rule "derived_predicates", (0, 1, [(Rule "structure_def", 1)])); (Rule "structure_def", (1, 0, [(r0, 1)]))];
   [];
   [];
   [];
   [(Rule "action_def", (0, 1, [(Rule "structure_def", 0)])); (Rule "derived_predicates", (0, 1, [(Rule "structure_def", 1)])); (Rule "structure_def", (1, 0, [(r0, 1)]))];
   [];
   [];
   [];
   [];
   [(Rule "primitive_type", (3, 0, [(r14, 1)]))];
   [];
   [];
   [(Rule "f_type_def", (3, 0, [(r11, 1)]))];
   [];
   [(Rule "variable", (1, 0, [(r4, 1)]))];
   [(Rule "variable", (0, 1, [(r4, 0)])); (r4, (1, 0, [(Rule "typed_list_variable", 2); (r5, 1)]))];
   [];
   [];
   [];
   [(Rule "typed_list_variable", (1, 0, [(Rule "action_parameters", 0)])); (Rule "variable", (0, 2, [(r4, 0)])); (r4, (0, 1, [(Rule "typed_list_variable", 0)])); (r5, (0, 1, [(Rule "typed_list_variable", 2)]))];
   [(Rule "action_body_def", (5, 0, [(Rule "action_def", 0)]))];
   [];
   [(Rule "atomic_formula_term@gd", (0, 1, [(Rule "gd", 0)])); (Rule "gd", (2, 0, [(Rule "gd", 3)]))];
   [(Rule "constant", (0, 2, [(Rule "term", 0)])); (Rule "term", (0, 1, [(r3, 0)])); (Rule "variable", (0, 2, [(Rule "term", 1)])); (r3, (2, 0, [(Rule "atomic_formula_term@gd", 0); (Rule "atomic_formula_term", 0); (Rule "atomic_formula_term@effect", 0); (Rule "atomic_formula_term@cond", 0); (Rule "atomic_formula_term@p", 0); (Rule "atomic_formula_term@c_effect", 0)]))];
   [(Rule "constant", (0, 1, [(Rule "term", 0)])); (Rule "term", (2, 0, [(Rule "atomic_formula_term@gd", 2)])); (Rule "variable", (0, 1, [(Rule "term", 1)]))];
   [(Rule "atomic_formula_term@gd", (0, 2, [(Rule "gd", 0)])); (Rule "gd", (0, 1, [(r1, 0)])); (r1, (2, 0, [(Rule "gd", 4)]))];
   [(Rule "atomic_formula_term@gd", (0, 1, [(Rule "gd", 0)])); (Rule "gd", (2, 0, [(Rule "gd", 6)]))];
   [(Rule "atomic_formula_term@gd", (0, 2, [(Rule "gd", 0)])); (Rule "gd", (0, 1, [(r1, 0)])); (r1, (2, 0, [(Rule "gd", 1)]))];
   [];
   [];
   [];
   [];
   [];
   [(Rule "f_exp", (2, 0, [(Rule "gd", 9)])); (Rule "f_head", (0, 1, [(Rule "f_exp", 4)])); (Rule "num_literal", (0, 1, [(Rule "f_exp", 0)]))];
   [];
   [];
   [];
   [(Rule "action_def", (0, 1, [(Rule "structure_def", 0)])); (Rule "derived_predicates", (0, 1, [(Rule "structure_def", 1)])); (Rule "structure_def", (1, 0, [(r0, 1)]))];
   [];
   [];
   [];
   [(Rule "action_def", (0, 1, [(Rule "structure_def", 0)])); (Rule "derived_predicates", (0, 1, [(Rule "structure_def", 1)])); (Rule "structure_def", (1, 0, [(r0, 1)]))];
   [];
   [(Rule "action_def", (0, 2, [(Rule "structure_def", 0)])); (Rule "derived_predicates", (0, 2, [(Rule "structure_def", 1)])); (Rule "structure_def", (0, 1, [(r0, 0)])); (r0, (8, 0, [(Rule "domain", 0)]))];
   [(Rule "action_def", (0, 1, [(Rule "structure_def", 0)])); (Rule "derived_predicates", (0, 1, [(Rule "structure_def", 1)])); (Rule "structure_def", (1, 0, [(r0, 1)]))];
   [];
   [];
   [(Rule "action_def", (0, 1, [(Rule "structure_def", 0)])); (Rule "derived_predicates", (0, 1, [(Rule "structure_def", 1)])); (Rule "structure_def", (1, 0, [(r0, 1)]))];
   [];
   [];
   [];
   [];
   [];
   [(Rule "action_def", (0, 1, [(Rule "structure_def", 0)])); (Rule "derived_predicates", (0, 1, [(Rule "structure_def", 1)])); (Rule "structure_def", (1, 0, [(r0, 1)]))];
   [];
   [];
   [];
   [];
   [];
   [];
   [];
   [(Rule "primitive_type", (0, 1, [(Rule "type_def", 1)])); (Rule "type_def", (2, 0, [(r5, 0)]))];
   [(Rule "variable", (1, 0, [(r4, 1)]))];
   [];
   [];
   [];
   [];
   [(Rule "atomic_formula_term@gd", (0, 2, [(Rule "gd", 0)])); (Rule "emptyor_pregd", (1, 0, [(Rule "action_body_def", 0)])); (Rule "gd", (0, 1, [(Rule "emptyor_pregd", 1)]))];
   [(Rule "atomic_formula_term@effect", (0, 4, [(Rule "p_effect@effect", 1)])); (Rule "c_effect@effect", (0, 2, [(Rule "effect", 2)])); (Rule "effect", (0, 1, [(Rule "emptyor_effect", 1)])); (Rule "emptyor_effect", (1, 0, [(Rule "action_body_def", 2)])); (Rule "num_effect", (0, 4, [(Rule "p_effect@effect", 2)])); (Rule "p_effect@effect", (0, 3, [(Rule "c_effect@effect", 3)]))];
   [(Rule "typed_list_variable", (3, 0, [(Rule "gd", 8)])); (Rule "variable", (0, 2, [(r4, 0)])); (r4, (0, 1, [(Rule "typed_list_variable", 0)])); (r5, (0, 1, [(Rule "typed_list_variable", 2)]))];
   [];
   [(Rule "constant", (0, 1, [(Rule "term", 0)])); (Rule "term", (1, 0, [(r3, 1)])); (Rule "variable", (0, 1, [(Rule "term", 1)]))];
   [];
   [];
   [];
   [];
   [];
   [(Rule "constant", (0, 1, [(Rule "term", 0)])); (Rule "term", (3, 0, [(Rule "atomic_formula_term@gd", 2); (Rule "atomic_formula_term", 2); (Rule "atomic_formula_term@effect", 2); (Rule "atomic_formula_term@cond", 2); (Rule "atomic_formula_term@p", 2); (Rule "atomic_formula_term@c_effect", 2)])); (Rule "variable", (0, 1, [(Rule "term", 1)]))];
   [];
   [(Rule "atomic_formula_term@gd", (0, 1, [(Rule "gd", 0)])); (Rule "gd", (1, 0, [(r1, 1)]))];
   [];
   [(Rule "atomic_formula_term@gd", (0, 1, [(Rule "gd", 0)])); (Rule "gd", (3, 0, [(Rule "gd", 6)]))];
   [(Rule "atomic_formula_term@gd", (0, 1, [(Rule "gd", 0)])); (Rule "gd", (1, 0, [(r1, 1)]))];
   [];
   [(Rule "binary_op", (1, 0, [(Rule "f_exp", 1)])); (Rule "multi_op", (1, 0, [(Rule "f_exp", 2)]))];
   [];
   [];
   [(Rule "f_exp", (3, 0, [(Rule "gd", 9)])); (Rule "f_head", (0, 1, [(Rule "f_exp", 4)])); (Rule "num_literal", (0, 1, [(Rule "f_exp", 0)]))];
   [];
   [];
   [(Rule "typed_list_variable", (3, 0, [(Rule "gd", 7)])); (Rule "variable", (0, 2, [(r4, 0)])); (r4, (0, 1, [(Rule "typed_list_variable", 0)])); (r5, (0, 1, [(Rule "typed_list_variable", 2)]))];
   [];
   [];
   [(Rule "action_def", (0, 1, [(Rule "structure_def", 0)])); (Rule "derived_predicates", (0, 1, [(Rule "structure_def", 1)])); (Rule "structure_def", (1, 0, [(r0, 1)]))];
   [];
   [];
   [];
   [];
   [];
   [];
   [];
   [(Rule "primitive_type", (0, 1, [(Rule "type_def", 1)])); (Rule "type_def", (3, 0, [(r5, 1)]))];
   [];
   [];
   [(Rule "binary_comp", (1, 0, [(Rule "gd", 9)])); (Rule "predicate@gd", (1, 0, [(Rule "atomic_formula_term@gd", 0)]))];
   [];
   [];
   [];
   [(Rule "assign_op", (1, 0, [(Rule "num_effect", 0)])); (Rule "predicate@effect", (1, 0, [(Rule "atomic_formula_term@effect", 0)]))];
   [];
   [];
   [];
   [];
   [];
   [];
   [];
   [];
   [];
   [];
   [];
   [];
   [];
   [];
   [(Rule "f_exp", (2, 0, [(Rule "f_exp", 2)])); (Rule "f_head", (0, 1, [(Rule "f_exp", 4)])); (Rule "num_literal", (0, 1, [(Rule "f_exp", 0)]))];
   [(Rule "f_exp", (2, 0, [(Rule "f_exp", 3)])); (Rule "f_head", (0, 1, [(Rule "f_exp", 4)])); (Rule "num_literal", (0, 1, [(Rule "f_exp", 0)]))];
   [(Rule "constant", (0, 2, [(Rule "term", 0)])); (Rule "term", (0, 1, [(r3, 0)])); (Rule "variable", (0, 2, [(Rule "term", 1)])); (r3, (2, 0, [(Rule "f_head", 1)]))];
   [];
   [];
   [];
   [(Rule "f_exp", (2, 0, [(Rule "f_exp", 1)])); (Rule "f_head", (0, 1, [(Rule "f_exp", 4)])); (Rule "num_literal", (0, 1, [(Rule "f_exp", 0)]))];
   [];
   [];
   [];
   [(Rule "primitive_type", (0, 1, [(r6, 0)])); (r6, (2, 0, [(Rule "type_def", 0)]))];
   [];
   [];
   [(Rule "atomic_formula_term@effect", (0, 4, [(Rule "p_effect@effect", 1)])); (Rule "c_effect@effect", (0, 2, [(Rule "effect", 2)])); (Rule "effect", (0, 1, [(Rule "emptyor_effect", 1)])); (Rule "emptyor_effect", (3, 0, [(Rule "action_body_def", 0)])); (Rule "num_effect", (0, 4, [(Rule "p_effect@effect", 2)])); (Rule "p_effect@effect", (0, 3, [(Rule "c_effect@effect", 3)]))];
   [(Rule "f_head", (2, 0, [(Rule "num_effect", 0)]))];
   [(Rule "atomic_formula_term", (2, 0, [(Rule "p_effect@effect", 0); (Rule "p_effect@cond", 0); (Rule "p_effect@p", 0); (Rule "p_effect@c_effect", 0)]))];
   [(Rule "atomic_formula_term@c_effect", (0, 3, [(Rule "p_effect@c_effect", 1)])); (Rule "c_effect", (0, 1, [(r7, 0)])); (Rule "num_effect", (0, 3, [(Rule "p_effect@c_effect", 2)])); (Rule "p_effect@c_effect", (0, 2, [(Rule "c_effect", 3)])); (r7, (2, 0, [(Rule "effect", 0)]))];
   [(Rule "constant", (0, 1, [(Rule "term", 0)])); (Rule "term", (2, 0, [(Rule "atomic_formula_term", 2); (Rule "atomic_formula_term@effect", 2); (Rule "atomic_formula_term@cond", 2); (Rule "atomic_formula_term@p", 2); (Rule "atomic_formula_term@c_effect", 2)])); (Rule "variable", (0, 1, [(Rule "term", 1)]))];
   [];
   [(Rule "atomic_formula_term@gd", (0, 1, [(Rule "gd", 0)])); (Rule "gd", (2, 0, [(Rule "c_effect@effect", 1); (Rule "c_effect", 1)]))];
   [];
   [];
   [(Rule "atomic_formula_term@effect", (0, 4, [(Rule "p_effect@effect", 1)])); (Rule "c_effect@effect", (0, 2, [(Rule "effect", 2)])); (Rule "effect", (0, 1, [(r8, 0)])); (Rule "num_effect", (0, 4, [(Rule "p_effect@effect", 2)])); (Rule "p_effect@effect", (0, 3, [(Rule "c_effect@effect", 3)])); (r8, (2, 0, [(Rule "c_effect@effect", 2); (Rule "c_effect", 2)]))];
   [];
   [];
   [];
   [];
   [(Rule "atomic_formula_term@gd", (0, 1, [(Rule "gd", 0)])); (Rule "gd", (5, 0, [(Rule "gd", 8)]))];
   [];
   [];
   [(Rule "f_exp", (0, 1, [(r2, 0)])); (Rule "f_head", (0, 2, [(Rule "f_exp", 4)])); (Rule "num_literal", (0, 2, [(Rule "f_exp", 0)])); (r2, (3, 0, [(Rule "f_exp", 2)]))];
   [];
   [(Rule "constant", (0, 1, [(Rule "term", 0)])); (Rule "term", (1, 0, [(r3, 1)])); (Rule "variable", (0, 1, [(Rule "term", 1)]))];
   [];
   [(Rule "f_exp", (3, 0, [(Rule "f_exp", 1)])); (Rule "f_head", (0, 1, [(Rule "f_exp", 4)])); (Rule "num_literal", (0, 1, [(Rule "f_exp", 0)]))];
   [];
   [(Rule "atomic_formula_term@gd", (0, 1, [(Rule "gd", 0)])); (Rule "gd", (5, 0, [(Rule "gd", 7)]))];
   [];
   [(Rule "primitive_type", (1, 0, [(r6, 1)]))];
   [];
   [(Rule "f_exp", (3, 0, [(Rule "num_effect", 0)])); (Rule "f_head", (0, 1, [(Rule "f_exp", 4)])); (Rule "num_literal", (0, 1, [(Rule "f_exp", 0)]))];
   [];
   [(Rule "predicate", (1, 0, [(Rule "atomic_formula_term", 0)]))];
   [];
   [(Rule "assign_op", (1, 0, [(Rule "num_effect", 0)])); (Rule "predicate@c_effect", (1, 0, [(Rule "atomic_formula_term@c_effect", 0)]))];
   [];
   [(Rule "atomic_formula_term@c_effect", (0, 2, [(Rule "p_effect@c_effect", 1)])); (Rule "c_effect", (1, 0, [(r7, 1)])); (Rule "num_effect", (0, 2, [(Rule "p_effect@c_effect", 2)])); (Rule "p_effect@c_effect", (0, 1, [(Rule "c_effect", 3)]))];
   [];
   [(Rule "atomic_formula_term@cond", (0, 2, [(Rule "p_effect@cond", 1)])); (Rule "cond_effect", (3, 0, [(Rule "c_effect@effect", 1); (Rule "c_effect", 1)])); (Rule "num_effect", (0, 2, [(Rule "p_effect@cond", 2)])); (Rule "p_effect@cond", (0, 1, [(Rule "cond_effect", 2)]))];
   [(Rule "assign_op", (1, 0, [(Rule "num_effect", 0)])); (Rule "predicate@effect", (1, 0, [(Rule "atomic_formula_term@effect", 0)]))];
   [];
   [(Rule "atomic_formula_term@effect", (0, 3, [(Rule "p_effect@effect", 1)])); (Rule "c_effect@effect", (0, 1, [(Rule "effect", 2)])); (Rule "effect", (1, 0, [(r8, 1)])); (Rule "num_effect", (0, 3, [(Rule "p_effect@effect", 2)])); (Rule "p_effect@effect", (0, 2, [(Rule "c_effect@effect", 3)]))];
   [(Rule "typed_list_variable", (3, 0, [(Rule "c_effect@effect", 0); (Rule "c_effect", 0)])); (Rule "variable", (0, 2, [(r4, 0)])); (r4, (0, 1, [(Rule "typed_list_variable", 0)])); (r5, (0, 1, [(Rule "typed_list_variable", 2)]))];
   [];
   [];
   [(Rule "f_exp", (1, 0, [(r2, 1)])); (Rule "f_head", (0, 1, [(Rule "f_exp", 4)])); (Rule "num_literal", (0, 1, [(Rule "f_exp", 0)]))];
   [];
   [];
   [];
   [];
   [];
   [];
   [];
   [];
   [];
   [];
   [];
   [(Rule "assign_op", (1, 0, [(Rule "num_effect", 0)])); (Rule "predicate@cond", (1, 0, [(Rule "atomic_formula_term@cond", 0)]))];
   [];
   [];
   [];
   [];
   [];
   [];
   [];
   [];
   [];
   [];
   [(Rule "atomic_formula_term@p", (0, 2, [(Rule "p_effect@p", 1)])); (Rule "num_effect", (0, 2, [(Rule "p_effect@p", 2)])); (Rule "p_effect@p", (0, 1, [(r9, 0)])); (r9, (2, 0, [(Rule "cond_effect", 0)]))];
   [];
   [(Rule "atomic_formula_term@effect", (0, 3, [(Rule "p_effect@effect", 1)])); (Rule "c_effect@effect", (0, 1, [(Rule "effect", 2)])); (Rule "effect", (5, 0, [(Rule "c_effect@effect", 0); (Rule "c_effect", 0)])); (Rule "num_effect", (0, 3, [(Rule "p_effect@effect", 2)])); (Rule "p_effect@effect", (0, 2, [(Rule "c_effect@effect", 3)]))];
   [];
   [(Rule "atomic_formula_term@p", (0, 1, [(Rule "p_effect@p", 1)])); (Rule "num_effect", (0, 1, [(Rule "p_effect@p", 2)])); (Rule "p_effect@p", (1, 0, [(r9, 1)]))];
   [(Rule "assign_op", (1, 0, [(Rule "num_effect", 0)])); (Rule "predicate@p", (1, 0, [(Rule "atomic_formula_term@p", 0)]))];
   [];
   [];
   [];
   [];
   []].
Definition domain_samples : list (nt * nat) :=
  [(Rule "domain_def", 0);
   (Rule "typed_list_name", 1);
   (Rule "require_key", 0);
   (Rule "primitive_type", 1);
   (Rule "typed_list_variable", 1);
   (Rule "atomic_function_skeleton", 0);
   (Rule "f_type_def", 0);
   (Rule "action_parameters", 0);
   (Rule "action_body_def", 3);
   (Rule "gd", 2);
   (Rule "emptyor_pregd", 0);
   (Rule "emptyor_effect", 0);
   (r1, 0);
   (Rule "binary_comp", 0);
   (Rule "variable", 0);
   (Rule "type_def", 1);
   (Rule "effect", 1);
   (Rule "term", 1);
   (Rule "num_literal", 0);
   (Rule "binary_op", 0);
   (Rule "multi_op", 0);
   (Rule "f_head", 2);
   (r6, 0);
   (Rule "c_effect@effect", 0);
   (Rule "c_effect", 0);
   (Rule "cond_effect", 1);
   (r8, 0);
   (Rule "atomic_formula_term", 2);
   (Rule "atomic_formula_term@effect", 2);
   (Rule "atomic_formula_term@c_effect", 2);
   (Rule "p_effect@p", 0);
   (Rule "atomic_formula_term@cond", 2);
   (Rule "assign_op", 0);
   (Rule "atomic_formula_term@p", 2);
   (Rule "domain", 63);
   (Rule "types", 0);
   (Rule "constants", 0);
   (r15, 0);
   (Rule "atomic_formula_skeleton", 0);
   (r10, 0);
   (r11, 0);
   (Rule "action_def", 0);
   (Rule "derived_predicates", 0);
   (r4, 0);
   (r5, 0);
   (Rule "atomic_formula_term@gd", 2);
   (Rule "f_exp", 0);
   (r3, 0);
   (r2, 0);
   (r7, 0);
   (Rule "p_effect@effect", 0);
   (Rule "p_effect@c_effect", 0);
   (r9, 0);
   (Rule "p_effect@cond", 0);
   (Rule "num_effect", 0);
   (Rule "requirements", 0);
   (r12, 0);
   (Rule "f_typed_list_atomic_function_skeleton", 0);
   (Rule "structure_def", 0);
   (Rule "predicates", 0);
   (Rule "functions", 0);
   (r0, 0);
   (r13, 0);
   (r14, 0);
   (Rule "predicate@gd", 0);
   (Rule "constant", 0);
   (Rule "predicate", 0);
   (Rule "predicate@effect", 0);
   (Rule "predicate@c_effect", 0);
   (Rule "predicate@cond", 0);
   (Rule "predicate@p", 0)].
Definition domain_before : list (list positive) :=
  [[];
   [1];
   [1];
   [2];
   [4];
   [4];
   [5];
   [5];
   [5];
   [5];
   [5; 8; 9; 10; 12; 13; 15; 26; 27; 29; 30; 31; 33; 36; 37; 38; 41; 42; 43; 46; 49; 52; 86; 87; 88; 90; 91; 92; 93; 95; 96; 98; 101; 102; 104; 108; 110; 111; 112; 115; 116; 119; 141; 142; 144; 147; 148; 150; 151; 152; 155; 157; 163; 167; 169; 170; 174; 207; 211; 213; 214; 217; 223; 263];
   [5];
   [5];
   [5; 8; 9; 10; 12; 15; 26; 27; 29; 30; 33; 36; 41; 42; 46; 49; 86; 87; 90; 91; 92; 95; 102; 111; 112; 116; 142; 147; 150; 152; 169; 213];
   [5];
   [5; 8; 9; 10; 12; 13; 15; 26; 27; 29; 30; 31; 33; 36; 37; 38; 41; 42; 43; 46; 49; 52; 86; 87; 88; 90; 91; 92; 93; 95; 96; 98; 101; 102; 104; 108; 110; 111; 112; 115; 116; 119; 141; 142; 144; 147; 148; 150; 151; 152; 155; 157; 163; 167; 169; 170; 174; 207; 211; 213; 214; 217; 223; 263];
   [5];
   [6];
   [7; 28; 45];
   [7; 28; 35; 45; 50];
   [7];
   [7; 28; 35; 45];
   [7; 28; 35; 40; 45; 50];
   [7; 28];
   [7; 28; 35; 40; 45; 50];
   [8];
   [8];
   [8];
   [8];
   [8];
   [8];
   [8];
   [9];
   [9];
   [9; 26; 42; 91];
   [9];
   [9];
   [10];
   [10];
   [10; 13; 30; 31; 36; 37; 38; 41; 43; 49; 52; 87; 88; 92; 93; 95; 96; 98; 101; 102; 104; 108; 110; 111; 115; 116; 119; 141; 142; 144; 147; 148; 151; 152; 155; 157; 163; 167; 169; 170; 174; 207; 211; 213; 214; 217; 223; 263];
   [12];
   [12];
   [12];
   [12];
   [12; 27];
   [12];
   [13; 31; 37; 38; 43; 52; 88; 93; 96; 98; 101; 104; 108; 110; 115; 119; 141; 144; 148; 151; 155; 157; 163; 167; 170; 174; 207; 211; 214; 217; 223; 263];
   [13];
   [15];
   [15; 29; 33; 46; 86; 90; 112; 150];
   [15];
   [15];
   [18];
   [19; 24];
   [19; 24];
   [19; 24; 55];
   [19];
   [20];
   [20];
   [20; 59];
   [20];
   [20; 58; 59; 128];
   [21; 71];
   [21; 71];
   [21; 71];
   [21; 71];
   [21; 71];
   [21];
   [21; 71];
   [21; 71];
   [21];
   [21; 71];
   [21; 71];
   [21; 71];
   [21; 71];
   [21; 71];
   [21; 71];
   [21; 71];
   [21; 71];
   [22];
   [22; 25; 80];
   [22];
   [23];
   [24];
   [25];
   [26];
   [26];
   [26];
   [26];
   [27];
   [27];
   [27];
   [27];
   [27];
   [29];
   [29];
   [29];
   [30];
   [30];
   [31];
   [33];
   [33];
   [33];
   [36];
   [36];
   [37];
   [38];
   [41];
   [41];
   [42];
   [42];
   [42];
   [42];
   [43];
   [46];
   [46];
   [46];
   [49];
   [49];
   [52];
   [53];
   [54; 124];
   [54];
   [55];
   [57];
   [58; 128];
   [58];
   [59];
   [61];
   [62];
   [71];
   [71];
   [80];
   [80];
   [81];
   [83];
   [84];
   [85; 192; 195; 196; 197; 249; 251; 252; 312; 320; 329];
   [85; 192; 195; 196; 197; 237; 249; 251; 252; 312; 320; 329];
   [85];
   [86];
   [86];
   [86];
   [87];
   [87];
   [88];
   [90];
   [90];
   [90];
   [91];
   [91];
   [91];
   [91];
   [92];
   [92];
   [93];
   [95];
   [95];
   [96];
   [98];
   [101];
   [102];
   [102];
   [104];
   [108];
   [110];
   [111];
   [111];
   [112];
   [112];
   [112];
   [115];
   [116];
   [116];
   [119];
   [123];
   [123; 179; 231; 271; 303; 331];
   [123; 179; 231; 271; 303; 331];
   [124];
   [127];
   [127; 182];
   [128];
   [130; 135; 184; 185; 189; 193; 194; 232; 239; 241; 247; 260; 295; 310; 325; 345];
   [130; 135; 189; 239; 260; 345];
   [130; 135; 189; 239; 260; 345];
   [130; 135; 185; 189; 239; 260; 345];
   [130];
   [135];
   [136];
   [136];
   [138; 274];
   [138; 274];
   [138; 274; 278; 335; 337; 342; 360; 376];
   [138; 274];
   [138; 274];
   [138; 274];
   [138; 274];
   [138; 274];
   [138; 274];
   [138; 274; 278; 335; 337; 342; 360; 376];
   [138; 274];
   [138; 274];
   [138; 274];
   [138; 274];
   [140];
   [141];
   [142];
   [142];
   [144];
   [147];
   [147];
   [148];
   [150];
   [150];
   [150];
   [151];
   [152];
   [152];
   [155];
   [157];
   [163];
   [167];
   [169];
   [169];
   [170];
   [174];
   [179];
   [182];
   [183];
   [184; 232];
   [184];
   [185];
   [187];
   [188];
   [189];
   [190];
   [190];
   [190];
   [191];
   [192];
   [193];
   [193; 194; 241; 247; 295; 310; 325];
   [193; 194; 241; 247; 295; 310; 325];
   [193; 295];
   [193; 194; 241; 247; 295; 310; 325];
   [193];
   [194; 310];
   [195; 197];
   [195];
   [195];
   [196];
   [197];
   [197];
   [203; 257; 293; 294; 299; 323; 327; 333; 348];
   [203; 257; 293; 294; 299; 307; 323; 327; 333; 348];
   [203; 257; 293; 294; 299; 323; 327; 333; 348];
   [203];
   [203; 257; 293; 294; 299; 323; 327; 333; 348];
   [203; 257; 293; 294; 299; 323; 327; 333; 348];
   [204];
   [207];
   [211];
   [213];
   [213];
   [214];
   [217];
   [223];
   [231; 271];
   [231; 271];
   [231];
   [232];
   [235];
   [236];
   [237];
   [237];
   [237];
   [238];
   [238; 306];
   [238; 306; 315; 344; 373];
   [238; 306; 309; 315; 339; 341; 344; 371; 373; 375];
   [238; 306];
   [238; 306; 309; 315; 339; 344; 373];
   [238; 306; 309; 315; 339; 341; 344; 371; 373; 375];
   [239];
   [240];
   [241; 325];
   [241];
   [247];
   [249; 252];
   [249];
   [251];
   [252];
   [254];
   [254];
   [254; 334];
   [254];
   [254];
   [254];
   [254];
   [257];
   [260];
   [263];
   [268];
   [271];
   [274];
   [275];
   [278; 337; 342; 360; 376];
   [278; 337; 342; 360; 376];
   [278; 342];
   [278; 335; 337; 342; 360; 376];
   [278];
   [278; 337; 342];
   [278; 337; 342; 360; 376];
   [278; 337; 342; 360; 376];
   [278; 337; 342];
   [278; 337; 342; 360; 376];
   [278; 337; 342; 360; 376];
   [278; 337; 342; 360; 376];
   [278; 337; 342];
   [284];
   [288];
   [291];
   [293];
   [294];
   [295];
   [295];
   [299];
   [300];
   [301];
   [303];
   [303];
   [306];
   [307];
   [307];
   [308];
   [308];
   [309; 339];
   [309];
   [309];
   [309];
   [312];
   [315; 344; 373];
   [315];
   [315];
   [319];
   [320];
   [323];
   [323];
   [324];
   [325];
   [327];
   [329];
   [331];
   [331];
   [333];
   [336];
   [339];
   [339];
   [341];
   [341];
   [341];
   [344];
   [344];
   [345];
   [346];
   [348];
   [348];
   [351];
   [352];
   [355];
   [360];
   [361];
   [364];
   [371];
   [371];
   [371; 375];
   [371];
   [373];
   [375];
   [375];
   [378]]%positive.
Definition problem_context : list (list (nt * (nat * nat * list (nt * nat)))) :=
  [[];
   [];
   [];
   [(Rule "problem_def", (2, 0, [(Rule "problem", 0)]))];
   [(Rule "problem_domain", (3, 0, [(Rule "problem", 0)]))];
   [];
   [(Rule "init", (4, 0, [(Rule "problem", 6)])); (Rule "objects", (4, 0, [(Rule "problem", 4)])); (Rule "requirements", (4, 0, [(Rule "problem", 0)]))];
   [];
   [];
   [(Rule "init", (5, 0, [(Rule "problem", 2)])); (Rule "objects", (5, 0, [(Rule "problem", 0)]))];
   [(Rule "goal", (5, 0, [(Rule "problem", 6)]))];
   [];
   [(Rule "init", (5, 0, [(Rule "problem", 4)]))];
   [];
   [];
   [(Rule "init", (6, 0, [(Rule "problem", 0)]))];
   [];
   [(Rule "goal", (6, 0, [(Rule "problem", 2)]))];
   [(Rule "metric_spec", (6, 0, [(Rule "problem", 6)]))];
   [];
   [(Rule "require_key", (0, 1, [(r15, 0)])); (r15, (2, 0, [(Rule "requirements", 0)]))];
   [(Rule "typed_list_name", (2, 0, [(Rule "objects", 0)])); (r13, (0, 1, [(Rule "typed_list_name", 0)])); (r14, (0, 1, [(Rule "typed_list_name", 3)]))];
   [(Rule "atomic_formula_name@init", (0, 3, [(Rule "literal_name", 0)])); (Rule "init_el", (0, 1, [(r17, 0)])); (Rule "literal_name", (0, 2, [(Rule "init_el", 0)])); (r17, (2, 0, [(Rule "init", 0)]))];
   [(Rule "goal", (6, 0, [(Rule "problem", 4)]))];
   [];
   [];
   [];
   [(Rule "goal", (7, 0, [(Rule "problem", 0)]))];
   [(Rule "metric_spec", (7, 0, [(Rule "problem", 2)]))];
   [];
   [];
   [];
   [(Rule "atomic_formula_term@gd", (0, 1, [(Rule "gd", 0)])); (Rule "gd", (2, 0, [(Rule "goal", 0)]))];
   [];
   [];
   [];
   [];
   [];
   [];
   [(Rule "require_key", (1, 0, [(r15, 1)]))];
   [];
   [];
   [];
   [];
   [];
   [];
   [];
   [];
   [];
   [];
   [(r13, (1, 0, [(Rule "typed_list_name", 2); (r14, 1)]))];
   [];
   [];
   [];
   [];
   [];
   [];
   [(Rule "atomic_formula_name@init", (0, 2, [(Rule "literal_name", 0)])); (Rule "init_el", (1, 0, [(r17, 1)])); (Rule "literal_name", (0, 1, [(Rule "init_el", 0)]))];
   [(Rule "predicate@init", (1, 0, [(Rule "atomic_formula_name@init", 1)]))];
   [];
   [(Rule "metric_spec", (7, 0, [(Rule "problem", 4)]))];
   [];
   [(Rule "metric_spec", (8, 0, [(Rule "problem", 0)]))];
   [];
   [];
   [(Rule "optimization", (2, 0, [(Rule "metric_spec", 0)]))];
   [];
   [];
   [(Rule "binary_comp", (1, 0, [(Rule "gd", 9)])); (Rule "predicate@gd", (1, 0, [(Rule "atomic_formula_term@gd", 0)]))];
   [];
   [];
   [];
   [];
   [];
   [(Rule "primitive_type", (2, 0, [(r14, 0)]))];
   [];
   [];
   [];
   [(Rule "atomic_formula_name", (2, 0, [(Rule "literal_name", 1)]))];
   [(r13, (2, 0, [(Rule "atomic_formula_name@init", 0); (Rule "atomic_formula_name", 0)]))];
   [];
   [(Rule "basic_function_term", (2, 0, [(Rule "init_el", 1)]))];
   [];
   [];
   [];
   [];
   [];
   [];
   [(Rule "basic_function_term", (0, 1, [(Rule "metric_f_exp", 3)])); (Rule "metric_f_exp", (3, 0, [(Rule "metric_spec", 0)]))];
   [];
   [];
   [(Rule "atomic_formula_term@gd", (0, 1, [(Rule "gd", 0)])); (Rule "gd", (2, 0, [(Rule "gd", 3)]))];
   [(Rule "f_exp", (2, 0, [(Rule "gd", 9)])); (Rule "f_head", (0, 1, [(Rule "f_exp", 4)])); (Rule "num_literal", (0, 1, [(Rule "f_exp", 0)]))];
   [(Rule "atomic_formula_term@gd", (0, 2, [(Rule "gd", 0)])); (Rule "gd", (0, 1, [(r1, 0)])); (r1, (2, 0, [(Rule "gd", 4)]))];
   [(Rule "atomic_formula_term@gd", (0, 2, [(Rule "gd", 0)])); (Rule "gd", (0, 1, [(r1, 0)])); (r1, (2, 0, [(Rule "gd", 1)]))];
   [(Rule "constant", (0, 2, [(Rule "term", 0)])); (Rule "term", (0, 1, [(r3, 0)])); (Rule "variable", (0, 2, [(Rule "term", 1)])); (r3, (2, 0, [(Rule "atomic_formula_term@gd", 0)]))];
   [];
   [(Rule "atomic_formula_term@gd", (0, 1, [(Rule "gd", 0)])); (Rule "gd", (2, 0, [(Rule "gd", 6)]))];
   [(Rule "constant", (0, 1, [(Rule "term", 0)])); (Rule "term", (2, 0, [(Rule "atomic_formula_term@gd", 2)])); (Rule "variable", (0, 1, [(Rule "term", 1)]))];
   [];
   [];
   [];
   [];
   [];
   [(Rule "primitive_type", (3, 0, [(r14, 1)]))];
   [];
   [];
   [];
   [(Rule "predicate", (1, 0, [(Rule "atomic_formula_name", 1)]))];
   [];
   [];
   [];
   [(Rule "num_literal", (3, 0, [(Rule "init_el", 1)]))];
   [];
   [];
   [];
   [];
   [(Rule "binary_op", (1, 0, [(Rule "metric_f_exp", 0)])); (Rule "multi_op", (1, 0, [(Rule "metric_f_exp", 1)]))];
   [];
   [];
   [];
   [(Rule "typed_list_variable", (3, 0, [(Rule "gd", 8)])); (Rule "variable", (0, 2, [(r4, 0)])); (r4, (0, 1, [(Rule "typed_list_variable", 0)])); (r5, (0, 1, [(Rule "typed_list_variable", 2)]))];
   [];
   [];
   [(Rule "binary_op", (1, 0, [(Rule "f_exp", 1)])); (Rule "multi_op", (1, 0, [(Rule "f_exp", 2)]))];
   [];
   [];
   [(Rule "f_exp", (3, 0, [(Rule "gd", 9)])); (Rule "f_head", (0, 1, [(Rule "f_exp", 4)])); (Rule "num_literal", (0, 1, [(Rule "f_exp", 0)]))];
   [];
   [];
   [(Rule "atomic_formula_term@gd", (0, 1, [(Rule "gd", 0)])); (Rule "gd", (1, 0, [(r1, 1)]))];
   [];
   [];
   [(Rule "atomic_formula_term@gd", (0, 1, [(Rule "gd", 0)])); (Rule "gd", (1, 0, [(r1, 1)]))];
   [];
   [(Rule "constant", (0, 1, [(Rule "term", 0)])); (Rule "term", (1, 0, [(r3, 1)])); (Rule "variable", (0, 1, [(Rule "term", 1)]))];
   [];
   [];
   [];
   [];
   [];
   [(Rule "typed_list_variable", (3, 0, [(Rule "gd", 7)])); (Rule "variable", (0, 2, [(r4, 0)])); (r4, (0, 1, [(Rule "typed_list_variable", 0)])); (r5, (0, 1, [(Rule "typed_list_variable", 2)]))];
   [(Rule "atomic_formula_term@gd", (0, 1, [(Rule "gd", 0)])); (Rule "gd", (3, 0, [(Rule "gd", 6)]))];
   [(Rule "constant", (0, 1, [(Rule "term", 0)])); (Rule "term", (3, 0, [(Rule "atomic_formula_term@gd", 2)])); (Rule "variable", (0, 1, [(Rule "term", 1)]))];
   [];
   [];
   [];
   [];
   [(r13, (2, 0, [(Rule "basic_function_term", 1)]))];
   [(Rule "basic_function_term", (0, 1, [(Rule "metric_f_exp", 3)])); (Rule "metric_f_exp", (2, 0, [(Rule "metric_f_exp", 1)]))];
   [(Rule "basic_function_term", (0, 1, [(Rule "metric_f_exp", 3)])); (Rule "metric_f_exp", (2, 0, [(Rule "metric_f_exp", 2)]))];
   [];
   [];
   [];
   [(Rule "basic_function_term", (0, 1, [(Rule "metric_f_exp", 3)])); (Rule "metric_f_exp", (2, 0, [(Rule "metric_f_exp", 0)]))];
   [];
   [(Rule "variable", (0, 1, [(r4, 0)])); (r4, (1, 0, [(Rule "typed_list_variable", 2); (r5, 1)]))];
   [(Rule "variable", (1, 0, [(r4, 1)]))];
   [];
   [];
   [];
   [(Rule "f_exp", (2, 0, [(Rule "f_exp", 2)])); (Rule "f_head", (0, 1, [(Rule "f_exp", 4)])); (Rule "num_literal", (0, 1, [(Rule "f_exp", 0)]))];
   [(Rule "f_exp", (2, 0, [(Rule "f_exp", 3)])); (Rule "f_head", (0, 1, [(Rule "f_exp", 4)])); (Rule "num_literal", (0, 1, [(Rule "f_exp", 0)]))];
   [(Rule "constant", (0, 2, [(Rule "term", 0)])); (Rule "term", (0, 1, [(r3, 0)])); (Rule "variable", (0, 2, [(Rule "term", 1)])); (r3, (2, 0, [(Rule "f_head", 1)]))];
   [(Rule "f_exp", (2, 0, [(Rule "f_exp", 1)])); (Rule "f_head", (0, 1, [(Rule "f_exp", 4)])); (Rule "num_literal", (0, 1, [(Rule "f_exp", 0)]))];
   [];
   [];
   [];
   [];
   [];
   [];
   [];
   [];
   [];
   [];
   [];
   [];
   [];
   [(Rule "basic_function_term", (0, 2, [(Rule "metric_f_exp", 3)])); (Rule "metric_f_exp", (0, 1, [(r16, 0)])); (r16, (3, 0, [(Rule "metric_f_exp", 1)]))];
   [];
   [(Rule "basic_function_term", (0, 1, [(Rule "metric_f_exp", 3)])); (Rule "metric_f_exp", (3, 0, [(Rule "metric_f_exp", 0)]))];
   [(Rule "variable", (1, 0, [(r4, 1)]))];
   [(Rule "primitive_type", (0, 1, [(Rule "type_def", 1)])); (Rule "type_def", (2, 0, [(r5, 0)]))];
   [];
   [(Rule "atomic_formula_term@gd", (0, 1, [(Rule "gd", 0)])); (Rule "gd", (5, 0, [(Rule "gd", 8)]))];
   [(Rule "f_exp", (0, 1, [(r2, 0)])); (Rule "f_head", (0, 2, [(Rule "f_exp", 4)])); (Rule "num_literal", (0, 2, [(Rule "f_exp", 0)])); (r2, (3, 0, [(Rule "f_exp", 2)]))];
   [];
   [];
   [(Rule "constant", (0, 1, [(Rule "term", 0)])); (Rule "term", (1, 0, [(r3, 1)])); (Rule "variable", (0, 1, [(Rule "term", 1)]))];
   [(Rule "f_exp", (3, 0, [(Rule "f_exp", 1)])); (Rule "f_head", (0, 1, [(Rule "f_exp", 4)])); (Rule "num_literal", (0, 1, [(Rule "f_exp", 0)]))];
   [];
   [(Rule "atomic_formula_term@gd", (0, 1, [(Rule "gd", 0)])); (Rule "gd", (5, 0, [(Rule "gd", 7)]))];
   [];
   [];
   [];
   [];
   [(Rule "basic_function_term", (0, 1, [(Rule "metric_f_exp", 3)])); (Rule "metric_f_exp", (1, 0, [(r16, 1)]))];
   [];
   [];
   [(Rule "primitive_type", (0, 1, [(Rule "type_def", 1)])); (Rule "type_def", (3, 0, [(r5, 1)]))];
   [];
   [];
   [];
   [];
   [];
   [(Rule "f_exp", (1, 0, [(r2, 1)])); (Rule "f_head", (0, 1, [(Rule "f_exp", 4)])); (Rule "num_literal", (0, 1, [(Rule "f_exp", 0)]))];
   [];
   [];
   [];
   [];
   [];
   [];
   [];
   [];
   [(Rule "primitive_type", (0, 1, [(r6, 0)])); (r6, (2, 0, [(Rule "type_def", 0)]))];
   [];
   [];
   [];
   [];
   [];
   [];
   [(Rule "primitive_type", (1, 0, [(r6, 1)]))];
   [];
   []].
Definition problem_samples : list (nt * nat) :=
  [(Rule "problem_def", 0);
   (Rule "problem_domain", 0);
   (Rule "init", 1);
   (Rule "typed_list_name", 1);
   (Rule "gd", 2);
   (Rule "optimization", 0);
   (Rule "metric_f_exp", 4);
   (Rule "require_key", 0);
   (r1, 0);
   (Rule "typed_list_variable", 1);
   (Rule "binary_comp", 0);
   (Rule "binary_op", 0);
   (Rule "multi_op", 0);
   (r16, 0);
   (Rule "basic_function_term", 2);
   (Rule "primitive_type", 1);
   (Rule "num_literal", 0);
   (Rule "f_head", 2);
   (Rule "variable", 0);
   (Rule "type_def", 1);
   (r6, 0);
   (Rule "objects", 0);
   (Rule "goal", 0);
   (Rule "metric_spec", 0);
   (r15, 0);
   (Rule "init_el", 1);
   (Rule "f_exp", 0);
   (Rule "term", 1);
   (r4, 0);
   (r5, 0);
   (r2, 0);
   (Rule "problem", 4);
   (Rule "requirements", 0);
   (r17, 0);
   (Rule "atomic_formula_term@gd", 2);
   (r3, 0);
   (r13, 0);
   (r14, 0);
   (Rule "predicate@gd", 0);
   (Rule "constant", 0);
   (Rule "predicate@init", 0);
   (Rule "predicate", 0);
   (Rule "atomic_formula_name@init", 1);
   (Rule "atomic_formula_name", 1);
   (Rule "literal_name", 0)].
Definition problem_before : list (list positive) :=
  [[];
   [1];
   [1];
   [2];
   [4];
   [4];
   [5];
   [5];
   [6];
   [7];
   [7];
   [7];
   [7];
   [8];
   [9];
   [10];
   [10];
   [10];
   [11];
   [11; 18; 24; 28];
   [12];
   [12; 17];
   [12; 17; 25];
   [13];
   [13; 16];
   [14];
   [15];
   [16];
   [18];
   [19; 29; 61; 63];
   [19];
   [19];
   [20];
   [21; 40];
   [21; 40];
   [21; 40];
   [21; 40];
   [21];
   [21; 40];
   [21];
   [21; 40];
   [21; 40];
   [21; 40];
   [21; 40];
   [21; 40];
   [21; 40];
   [21; 40];
   [21; 40];
   [21; 40];
   [21; 40];
   [22];
   [22];
   [22; 51; 80; 149];
   [22];
   [23];
   [23; 58];
   [23; 58];
   [23];
   [23; 58];
   [23];
   [24];
   [26];
   [28];
   [29];
   [29];
   [30];
   [31];
   [33; 92; 94; 95; 98; 131; 134; 143; 185; 192];
   [33; 92; 94; 95; 98; 131; 134; 143; 185; 192];
   [33];
   [40];
   [40];
   [51];
   [52; 73; 111; 177];
   [52];
   [54];
   [58];
   [58];
   [59];
   [59; 109];
   [59; 69; 109];
   [59];
   [61];
   [61];
   [63];
   [63];
   [64];
   [66];
   [66];
   [66];
   [69];
   [69];
   [69];
   [69];
   [69];
   [69];
   [69];
   [69];
   [69];
   [69];
   [69];
   [69];
   [69];
   [70];
   [73];
   [75];
   [75; 105; 183; 200; 215; 222];
   [75; 105; 183; 200; 215; 222];
   [79];
   [79];
   [80];
   [80];
   [82];
   [82];
   [82; 89; 150; 151; 155; 179; 181; 197];
   [84];
   [85];
   [89; 150; 151; 155; 179; 181; 197];
   [89];
   [89; 150; 151; 155; 179; 181; 197];
   [89; 150; 151; 155; 179; 181; 197];
   [91];
   [92];
   [93; 128; 162; 163; 165; 186; 190; 206];
   [93; 128; 162; 163; 165; 186; 190; 206];
   [93; 113; 128; 162; 163; 165; 186; 190; 206];
   [93; 128; 162; 163; 165; 186; 190; 206];
   [93];
   [93; 128; 162; 163; 165; 186; 190; 206];
   [94; 95];
   [94];
   [94];
   [95];
   [95];
   [96; 99; 136; 144; 164; 189];
   [96];
   [96; 99; 136; 144; 164; 189];
   [96; 99; 136; 144; 164; 189];
   [96; 99; 122; 136; 142; 144; 157; 158; 164; 182; 189];
   [96; 164];
   [96];
   [97];
   [98];
   [99];
   [105];
   [110];
   [111];
   [113];
   [114; 118];
   [118];
   [118];
   [118; 125];
   [118; 125];
   [118; 125];
   [118];
   [119];
   [122; 142];
   [122; 142];
   [122];
   [122; 142; 157];
   [123];
   [125];
   [125];
   [125];
   [125];
   [128];
   [131];
   [131; 134];
   [134];
   [136];
   [136; 189];
   [139];
   [142];
   [143];
   [144];
   [148];
   [149];
   [149];
   [150];
   [151];
   [155];
   [157];
   [158];
   [158; 182];
   [159];
   [162];
   [163];
   [164];
   [164];
   [165];
   [166];
   [173];
   [174];
   [175];
   [177];
   [179];
   [179];
   [180];
   [181];
   [182];
   [183; 200];
   [183; 200];
   [183];
   [185];
   [186];
   [186];
   [187];
   [189];
   [190];
   [192];
   [197];
   [197];
   [199];
   [200];
   [201];
   [204];
   [206];
   [206];
   [209];
   [210];
   [215];
   [215];
   [222];
   [222]]%positive.
Definition plan_context : list (list (nt * (nat * nat * list (nt * nat)))) :=
  [[(Rule "ground_action", (0, 2, [(r18, 0)])); (r18, (0, 1, [(Rule "plan", 0)]))];
   [(Rule "ground_action", (1, 0, [(r18, 1)]))];
   [];
   [];
   [(Rule "predicate", (1, 0, [(Rule "ground_action", 1)]))];
   [];
   [(r13, (2, 0, [(Rule "ground_action", 0)]))];
   [];
   [];
   [];
   [];
   [];
   []].
Definition plan_samples : list (nt * nat) :=
  [(Rule "plan", 1);
   (Rule "predicate", 0);
   (r13, 0);
   (Rule "ground_action", 1);
   (r18, 0)].
Definition plan_before : list (list positive) :=
  [[];
   [1];
   [1];
   [1];
   [1; 2];
   [2];
   [5];
   [5];
   [7];
   [7];
   [7];
   [9];
   [9]]%positive.
