(** The LALR(1) tables that Lark builds from pddl/parser/grammar.lark for the three start symbols
    (pddl/parser/base.py:34-40; domain.py:557, problem.py:222, plan.py:51).  Written by
    tools/lalr_coq.py.  One row per state. *)
From Coq Require Import String List PArith.
From Verif Require Import Spec_Grammar Lark.
Import ListNotations.
Open Scope string_scope.
Open Scope list_scope.

Definition e0 : nt := Rep (N "structure_def").
Definition e1 : nt := Rep (T "NAME").
Definition e2 : nt := Rep (Seq [Plus (T "NAME"); T "TYPE_SEP"; N "primitive_type"]).
Definition e3 : nt := Rep (N "atomic_function_skeleton").
Definition e4 : nt := Rep (Seq [Plus (N "atomic_function_skeleton"); T "TYPE_SEP"; N "f_type_def"]).
Definition e5 : nt := Rep (N "require_key").
Definition e6 : nt := Rep (N "atomic_formula_skeleton").
Definition e7 : nt := Rep (N "variable").
Definition e8 : nt := Rep (Seq [Plus (N "variable"); T "TYPE_SEP"; N "type_def"]).
Definition e9 : nt := Rep (N "term").
Definition e10 : nt := Rep (N "gd").
Definition e11 : nt := Rep (N "primitive_type").
Definition e12 : nt := Rep (N "c_effect").
Definition e13 : nt := Rep (N "effect").
Definition e14 : nt := Rep (N "f_exp").
Definition e15 : nt := Rep (N "p_effect").
Definition e16 : nt := Rep (N "init_el").
Definition e17 : nt := Rep (N "metric_f_exp").
Definition e18 : nt := Rep (N "ground_action").
Definition p0 : act := Reduce (Rule "structure_def") [ES (BN (Rule "derived_predicates"))].
Definition p1 : act := Reduce (e0) [ES (BN (Rule "structure_def"))].
Definition p2 : act := Reduce (Rule "structure_def") [ES (BN (Rule "action_def"))].
Definition p3 : act := Reduce (Rule "domain") [ES (BT "LPAR"); ES (BT "DEFINE"); ES (BN (Rule "domain_def")); EAbsent; EAbsent; EAbsent; EAbsent; EAbsent; ES (BT "RPAR")].
Definition p4 : act := Reduce (Rule "typed_list_name") [].
Definition p5 : act := Reduce (Rule "domain") [ES (BT "LPAR"); ES (BT "DEFINE"); ES (BN (Rule "domain_def")); ES (BN (Rule "requirements")); EAbsent; EAbsent; EAbsent; EAbsent; ES (BT "RPAR")].
Definition p6 : act := Reduce (Rule "domain") [ES (BT "LPAR"); ES (BT "DEFINE"); ES (BN (Rule "domain_def")); EAbsent; EAbsent; ES (BN (Rule "constants")); EAbsent; EAbsent; ES (BT "RPAR")].
Definition p7 : act := Reduce (Rule "domain") [ES (BT "LPAR"); ES (BT "DEFINE"); ES (BN (Rule "domain_def")); EAbsent; EAbsent; EAbsent; EAbsent; ES (BN (Rule "functions")); ES (BT "RPAR")].
Definition p8 : act := Reduce (Rule "domain") [ES (BT "LPAR"); ES (BT "DEFINE"); ES (BN (Rule "domain_def")); EAbsent; ES (BN (Rule "types")); EAbsent; EAbsent; EAbsent; ES (BT "RPAR")].
Definition p9 : act := Reduce (e0) [ES (BN (e0)); ES (BN (Rule "structure_def"))].
Definition p10 : act := Reduce (Rule "domain") [ES (BT "LPAR"); ES (BT "DEFINE"); ES (BN (Rule "domain_def")); EAbsent; EAbsent; EAbsent; EAbsent; EAbsent; ES (BN (e0)); ES (BT "RPAR")].
Definition p11 : act := Reduce (Rule "domain") [ES (BT "LPAR"); ES (BT "DEFINE"); ES (BN (Rule "domain_def")); EAbsent; EAbsent; EAbsent; ES (BN (Rule "predicates")); EAbsent; ES (BT "RPAR")].
Definition p12 : act := Reduce (Rule "typed_list_name") [ES (BN (e1))].
Definition p13 : act := Reduce (Rule "typed_list_name") [ES (BN (e2))].
Definition p14 : act := Reduce (e1) [ES (BT "NAME")].
Definition p15 : act := Reduce (Rule "f_typed_list_atomic_function_skeleton") [ES (BN (e3))].
Definition p16 : act := Reduce (Rule "f_typed_list_atomic_function_skeleton") [ES (BN (e4))].
Definition p17 : act := Reduce (e3) [ES (BN (Rule "atomic_function_skeleton"))].
Definition p18 : act := Reduce (Rule "require_key") [ES (BT "EXISTENTIAL_PRECONDITIONS")].
Definition p19 : act := Reduce (Rule "require_key") [ES (BT "STRIPS")].
Definition p20 : act := Reduce (Rule "require_key") [ES (BT "EQUALITY")].
Definition p21 : act := Reduce (Rule "require_key") [ES (BT "QUANTIFIED_PRECONDITIONS")].
Definition p22 : act := Reduce (Rule "require_key") [ES (BT "NON_DETERMINISTIC")].
Definition p23 : act := Reduce (e5) [ES (BN (Rule "require_key"))].
Definition p24 : act := Reduce (Rule "require_key") [ES (BT "ADL")].
Definition p25 : act := Reduce (Rule "require_key") [ES (BT "NEG_PRECONDITION")].
Definition p26 : act := Reduce (Rule "require_key") [ES (BT "DERIVED_PREDICATES")].
Definition p27 : act := Reduce (Rule "require_key") [ES (BT "DIS_PRECONDITION")].
Definition p28 : act := Reduce (Rule "require_key") [ES (BT "TYPING")].
Definition p29 : act := Reduce (Rule "require_key") [ES (BT "CONDITIONAL_EFFECTS")].
Definition p30 : act := Reduce (Rule "require_key") [ES (BT "NUMERIC_FLUENTS")].
Definition p31 : act := Reduce (Rule "require_key") [ES (BT "UNIVERSAL_PRECONDITIONS")].
Definition p32 : act := Reduce (Rule "require_key") [ES (BT "ACTION_COSTS")].
Definition p33 : act := Reduce (Rule "require_key") [ES (BT "FLUENTS")].
Definition p34 : act := Reduce (e6) [ES (BN (Rule "atomic_formula_skeleton"))].
Definition p35 : act := Reduce (Rule "domain") [ES (BT "LPAR"); ES (BT "DEFINE"); ES (BN (Rule "domain_def")); ES (BN (Rule "requirements")); EAbsent; ES (BN (Rule "constants")); EAbsent; EAbsent; ES (BT "RPAR")].
Definition p36 : act := Reduce (Rule "domain") [ES (BT "LPAR"); ES (BT "DEFINE"); ES (BN (Rule "domain_def")); ES (BN (Rule "requirements")); ES (BN (Rule "types")); EAbsent; EAbsent; EAbsent; ES (BT "RPAR")].
Definition p37 : act := Reduce (Rule "domain") [ES (BT "LPAR"); ES (BT "DEFINE"); ES (BN (Rule "domain_def")); ES (BN (Rule "requirements")); EAbsent; EAbsent; ES (BN (Rule "predicates")); EAbsent; ES (BT "RPAR")].
Definition p38 : act := Reduce (Rule "domain") [ES (BT "LPAR"); ES (BT "DEFINE"); ES (BN (Rule "domain_def")); ES (BN (Rule "requirements")); EAbsent; EAbsent; EAbsent; ES (BN (Rule "functions")); ES (BT "RPAR")].
Definition p39 : act := Reduce (Rule "domain") [ES (BT "LPAR"); ES (BT "DEFINE"); ES (BN (Rule "domain_def")); ES (BN (Rule "requirements")); EAbsent; EAbsent; EAbsent; EAbsent; ES (BN (e0)); ES (BT "RPAR")].
Definition p40 : act := Reduce (Rule "domain") [ES (BT "LPAR"); ES (BT "DEFINE"); ES (BN (Rule "domain_def")); EAbsent; EAbsent; ES (BN (Rule "constants")); ES (BN (Rule "predicates")); EAbsent; ES (BT "RPAR")].
Definition p41 : act := Reduce (Rule "domain") [ES (BT "LPAR"); ES (BT "DEFINE"); ES (BN (Rule "domain_def")); EAbsent; EAbsent; ES (BN (Rule "constants")); EAbsent; ES (BN (Rule "functions")); ES (BT "RPAR")].
Definition p42 : act := Reduce (Rule "domain") [ES (BT "LPAR"); ES (BT "DEFINE"); ES (BN (Rule "domain_def")); EAbsent; EAbsent; ES (BN (Rule "constants")); EAbsent; EAbsent; ES (BN (e0)); ES (BT "RPAR")].
Definition p43 : act := Reduce (Rule "domain") [ES (BT "LPAR"); ES (BT "DEFINE"); ES (BN (Rule "domain_def")); EAbsent; EAbsent; EAbsent; EAbsent; ES (BN (Rule "functions")); ES (BN (e0)); ES (BT "RPAR")].
Definition p44 : act := Reduce (Rule "domain") [ES (BT "LPAR"); ES (BT "DEFINE"); ES (BN (Rule "domain_def")); EAbsent; ES (BN (Rule "types")); EAbsent; EAbsent; ES (BN (Rule "functions")); ES (BT "RPAR")].
Definition p45 : act := Reduce (Rule "domain") [ES (BT "LPAR"); ES (BT "DEFINE"); ES (BN (Rule "domain_def")); EAbsent; ES (BN (Rule "types")); ES (BN (Rule "constants")); EAbsent; EAbsent; ES (BT "RPAR")].
Definition p46 : act := Reduce (Rule "domain") [ES (BT "LPAR"); ES (BT "DEFINE"); ES (BN (Rule "domain_def")); EAbsent; ES (BN (Rule "types")); EAbsent; EAbsent; EAbsent; ES (BN (e0)); ES (BT "RPAR")].
Definition p47 : act := Reduce (Rule "domain") [ES (BT "LPAR"); ES (BT "DEFINE"); ES (BN (Rule "domain_def")); EAbsent; ES (BN (Rule "types")); EAbsent; ES (BN (Rule "predicates")); EAbsent; ES (BT "RPAR")].
Definition p48 : act := Reduce (Rule "domain") [ES (BT "LPAR"); ES (BT "DEFINE"); ES (BN (Rule "domain_def")); EAbsent; EAbsent; EAbsent; ES (BN (Rule "predicates")); ES (BN (Rule "functions")); ES (BT "RPAR")].
Definition p49 : act := Reduce (Rule "domain") [ES (BT "LPAR"); ES (BT "DEFINE"); ES (BN (Rule "domain_def")); EAbsent; EAbsent; EAbsent; ES (BN (Rule "predicates")); EAbsent; ES (BN (e0)); ES (BT "RPAR")].
Definition p50 : act := Reduce (Rule "domain_def") [ES (BT "LPAR"); ES (BT "DOMAIN"); ES (BT "NAME"); ES (BT "RPAR")].
Definition p51 : act := Reduce (e1) [ES (BN (e1)); ES (BT "NAME")].
Definition p52 : act := Reduce (Rule "typed_list_name") [ES (BN (e2)); ES (BN (e1))].
Definition p53 : act := Reduce (Rule "constants") [ES (BT "LPAR"); ES (BT "CONSTANTS"); ES (BN (Rule "typed_list_name")); ES (BT "RPAR")].
Definition p54 : act := Reduce (e3) [ES (BN (e3)); ES (BN (Rule "atomic_function_skeleton"))].
Definition p55 : act := Reduce (Rule "f_typed_list_atomic_function_skeleton") [ES (BN (e4)); ES (BN (e3))].
Definition p56 : act := Reduce (Rule "functions") [ES (BT "LPAR"); ES (BT "FUNCTIONS"); ES (BN (Rule "f_typed_list_atomic_function_skeleton")); ES (BT "RPAR")].
Definition p57 : act := Reduce (Rule "typed_list_variable") [].
Definition p58 : act := Reduce (e5) [ES (BN (e5)); ES (BN (Rule "require_key"))].
Definition p59 : act := Reduce (Rule "requirements") [ES (BT "LPAR"); ES (BT "REQUIREMENTS"); ES (BN (e5)); ES (BT "RPAR")].
Definition p60 : act := Reduce (e6) [ES (BN (e6)); ES (BN (Rule "atomic_formula_skeleton"))].
Definition p61 : act := Reduce (Rule "predicates") [ES (BT "LPAR"); ES (BT "PREDICATES"); ES (BN (e6)); ES (BT "RPAR")].
Definition p62 : act := Reduce (Rule "types") [ES (BT "LPAR"); ES (BT "TYPES"); ES (BN (Rule "typed_list_name")); ES (BT "RPAR")].
Definition p63 : act := Reduce (Rule "gd") [ES (BN (Rule "atomic_formula_term"))].
Definition p64 : act := Reduce (Rule "domain") [ES (BT "LPAR"); ES (BT "DEFINE"); ES (BN (Rule "domain_def")); ES (BN (Rule "requirements")); EAbsent; ES (BN (Rule "constants")); ES (BN (Rule "predicates")); EAbsent; ES (BT "RPAR")].
Definition p65 : act := Reduce (Rule "domain") [ES (BT "LPAR"); ES (BT "DEFINE"); ES (BN (Rule "domain_def")); ES (BN (Rule "requirements")); EAbsent; ES (BN (Rule "constants")); EAbsent; ES (BN (Rule "functions")); ES (BT "RPAR")].
Definition p66 : act := Reduce (Rule "domain") [ES (BT "LPAR"); ES (BT "DEFINE"); ES (BN (Rule "domain_def")); ES (BN (Rule "requirements")); EAbsent; ES (BN (Rule "constants")); EAbsent; EAbsent; ES (BN (e0)); ES (BT "RPAR")].
Definition p67 : act := Reduce (Rule "domain") [ES (BT "LPAR"); ES (BT "DEFINE"); ES (BN (Rule "domain_def")); ES (BN (Rule "requirements")); ES (BN (Rule "types")); EAbsent; ES (BN (Rule "predicates")); EAbsent; ES (BT "RPAR")].
Definition p68 : act := Reduce (Rule "domain") [ES (BT "LPAR"); ES (BT "DEFINE"); ES (BN (Rule "domain_def")); ES (BN (Rule "requirements")); ES (BN (Rule "types")); ES (BN (Rule "constants")); EAbsent; EAbsent; ES (BT "RPAR")].
Definition p69 : act := Reduce (Rule "domain") [ES (BT "LPAR"); ES (BT "DEFINE"); ES (BN (Rule "domain_def")); ES (BN (Rule "requirements")); ES (BN (Rule "types")); EAbsent; EAbsent; ES (BN (Rule "functions")); ES (BT "RPAR")].
Definition p70 : act := Reduce (Rule "domain") [ES (BT "LPAR"); ES (BT "DEFINE"); ES (BN (Rule "domain_def")); ES (BN (Rule "requirements")); ES (BN (Rule "types")); EAbsent; EAbsent; EAbsent; ES (BN (e0)); ES (BT "RPAR")].
Definition p71 : act := Reduce (Rule "domain") [ES (BT "LPAR"); ES (BT "DEFINE"); ES (BN (Rule "domain_def")); ES (BN (Rule "requirements")); EAbsent; EAbsent; ES (BN (Rule "predicates")); ES (BN (Rule "functions")); ES (BT "RPAR")].
Definition p72 : act := Reduce (Rule "domain") [ES (BT "LPAR"); ES (BT "DEFINE"); ES (BN (Rule "domain_def")); ES (BN (Rule "requirements")); EAbsent; EAbsent; ES (BN (Rule "predicates")); EAbsent; ES (BN (e0)); ES (BT "RPAR")].
Definition p73 : act := Reduce (Rule "domain") [ES (BT "LPAR"); ES (BT "DEFINE"); ES (BN (Rule "domain_def")); ES (BN (Rule "requirements")); EAbsent; EAbsent; EAbsent; ES (BN (Rule "functions")); ES (BN (e0)); ES (BT "RPAR")].
Definition p74 : act := Reduce (Rule "domain") [ES (BT "LPAR"); ES (BT "DEFINE"); ES (BN (Rule "domain_def")); EAbsent; EAbsent; ES (BN (Rule "constants")); ES (BN (Rule "predicates")); EAbsent; ES (BN (e0)); ES (BT "RPAR")].
Definition p75 : act := Reduce (Rule "domain") [ES (BT "LPAR"); ES (BT "DEFINE"); ES (BN (Rule "domain_def")); EAbsent; EAbsent; ES (BN (Rule "constants")); ES (BN (Rule "predicates")); ES (BN (Rule "functions")); ES (BT "RPAR")].
Definition p76 : act := Reduce (Rule "domain") [ES (BT "LPAR"); ES (BT "DEFINE"); ES (BN (Rule "domain_def")); EAbsent; EAbsent; ES (BN (Rule "constants")); EAbsent; ES (BN (Rule "functions")); ES (BN (e0)); ES (BT "RPAR")].
Definition p77 : act := Reduce (Rule "domain") [ES (BT "LPAR"); ES (BT "DEFINE"); ES (BN (Rule "domain_def")); EAbsent; ES (BN (Rule "types")); EAbsent; EAbsent; ES (BN (Rule "functions")); ES (BN (e0)); ES (BT "RPAR")].
Definition p78 : act := Reduce (Rule "domain") [ES (BT "LPAR"); ES (BT "DEFINE"); ES (BN (Rule "domain_def")); EAbsent; ES (BN (Rule "types")); ES (BN (Rule "constants")); EAbsent; EAbsent; ES (BN (e0)); ES (BT "RPAR")].
Definition p79 : act := Reduce (Rule "domain") [ES (BT "LPAR"); ES (BT "DEFINE"); ES (BN (Rule "domain_def")); EAbsent; ES (BN (Rule "types")); ES (BN (Rule "constants")); EAbsent; ES (BN (Rule "functions")); ES (BT "RPAR")].
Definition p80 : act := Reduce (Rule "domain") [ES (BT "LPAR"); ES (BT "DEFINE"); ES (BN (Rule "domain_def")); EAbsent; ES (BN (Rule "types")); ES (BN (Rule "constants")); ES (BN (Rule "predicates")); EAbsent; ES (BT "RPAR")].
Definition p81 : act := Reduce (Rule "domain") [ES (BT "LPAR"); ES (BT "DEFINE"); ES (BN (Rule "domain_def")); EAbsent; ES (BN (Rule "types")); EAbsent; ES (BN (Rule "predicates")); EAbsent; ES (BN (e0)); ES (BT "RPAR")].
Definition p82 : act := Reduce (Rule "domain") [ES (BT "LPAR"); ES (BT "DEFINE"); ES (BN (Rule "domain_def")); EAbsent; ES (BN (Rule "types")); EAbsent; ES (BN (Rule "predicates")); ES (BN (Rule "functions")); ES (BT "RPAR")].
Definition p83 : act := Reduce (Rule "domain") [ES (BT "LPAR"); ES (BT "DEFINE"); ES (BN (Rule "domain_def")); EAbsent; EAbsent; EAbsent; ES (BN (Rule "predicates")); ES (BN (Rule "functions")); ES (BN (e0)); ES (BT "RPAR")].
Definition p84 : act := Reduce (e2) [ES (BN (e1)); ES (BT "TYPE_SEP"); ES (BN (Rule "primitive_type"))].
Definition p85 : act := Reduce (Rule "primitive_type") [ES (BT "NAME")].
Definition p86 : act := Reduce (Rule "primitive_type") [ES (BT "OBJECT")].
Definition p87 : act := Reduce (e4) [ES (BN (e3)); ES (BT "TYPE_SEP"); ES (BN (Rule "f_type_def"))].
Definition p88 : act := Reduce (Rule "f_type_def") [ES (BT "TYPE_NUMBER")].
Definition p89 : act := Reduce (Rule "typed_list_variable") [ES (BN (e7))].
Definition p90 : act := Reduce (Rule "typed_list_variable") [ES (BN (e8))].
Definition p91 : act := Reduce (e7) [ES (BN (Rule "variable"))].
Definition p92 : act := Reduce (Rule "action_body_def") [EAbsent; EAbsent; EAbsent; EAbsent].
Definition p93 : act := Reduce (Rule "binary_comp") [ES (BT "EQUAL_OP")].
Definition p94 : act := Reduce (Rule "binary_comp") [ES (BT "LESSER_OP")].
Definition p95 : act := Reduce (Rule "binary_comp") [ES (BT "LESSER_EQUAL_OP")].
Definition p96 : act := Reduce (Rule "predicate") [ES (BT "NAME")].
Definition p97 : act := Reduce (Rule "binary_comp") [ES (BT "GREATER_OP")].
Definition p98 : act := Reduce (Rule "binary_comp") [ES (BT "GREATER_EQUAL_OP")].
Definition p99 : act := Reduce (Rule "derived_predicates") [ES (BT "LPAR"); ES (BT "DERIVED"); ES (BN (Rule "atomic_formula_skeleton")); ES (BN (Rule "gd")); ES (BT "RPAR")].
Definition p100 : act := Reduce (Rule "domain") [ES (BT "LPAR"); ES (BT "DEFINE"); ES (BN (Rule "domain_def")); ES (BN (Rule "requirements")); EAbsent; ES (BN (Rule "constants")); ES (BN (Rule "predicates")); EAbsent; ES (BN (e0)); ES (BT "RPAR")].
Definition p101 : act := Reduce (Rule "domain") [ES (BT "LPAR"); ES (BT "DEFINE"); ES (BN (Rule "domain_def")); ES (BN (Rule "requirements")); EAbsent; ES (BN (Rule "constants")); ES (BN (Rule "predicates")); ES (BN (Rule "functions")); ES (BT "RPAR")].
Definition p102 : act := Reduce (Rule "domain") [ES (BT "LPAR"); ES (BT "DEFINE"); ES (BN (Rule "domain_def")); ES (BN (Rule "requirements")); EAbsent; ES (BN (Rule "constants")); EAbsent; ES (BN (Rule "functions")); ES (BN (e0)); ES (BT "RPAR")].
Definition p103 : act := Reduce (Rule "domain") [ES (BT "LPAR"); ES (BT "DEFINE"); ES (BN (Rule "domain_def")); ES (BN (Rule "requirements")); ES (BN (Rule "types")); EAbsent; ES (BN (Rule "predicates")); ES (BN (Rule "functions")); ES (BT "RPAR")].
Definition p104 : act := Reduce (Rule "domain") [ES (BT "LPAR"); ES (BT "DEFINE"); ES (BN (Rule "domain_def")); ES (BN (Rule "requirements")); ES (BN (Rule "types")); EAbsent; ES (BN (Rule "predicates")); EAbsent; ES (BN (e0)); ES (BT "RPAR")].
Definition p105 : act := Reduce (Rule "domain") [ES (BT "LPAR"); ES (BT "DEFINE"); ES (BN (Rule "domain_def")); ES (BN (Rule "requirements")); ES (BN (Rule "types")); ES (BN (Rule "constants")); ES (BN (Rule "predicates")); EAbsent; ES (BT "RPAR")].
Definition p106 : act := Reduce (Rule "domain") [ES (BT "LPAR"); ES (BT "DEFINE"); ES (BN (Rule "domain_def")); ES (BN (Rule "requirements")); ES (BN (Rule "types")); ES (BN (Rule "constants")); EAbsent; EAbsent; ES (BN (e0)); ES (BT "RPAR")].
Definition p107 : act := Reduce (Rule "domain") [ES (BT "LPAR"); ES (BT "DEFINE"); ES (BN (Rule "domain_def")); ES (BN (Rule "requirements")); ES (BN (Rule "types")); ES (BN (Rule "constants")); EAbsent; ES (BN (Rule "functions")); ES (BT "RPAR")].
Definition p108 : act := Reduce (Rule "domain") [ES (BT "LPAR"); ES (BT "DEFINE"); ES (BN (Rule "domain_def")); ES (BN (Rule "requirements")); ES (BN (Rule "types")); EAbsent; EAbsent; ES (BN (Rule "functions")); ES (BN (e0)); ES (BT "RPAR")].
Definition p109 : act := Reduce (Rule "domain") [ES (BT "LPAR"); ES (BT "DEFINE"); ES (BN (Rule "domain_def")); ES (BN (Rule "requirements")); EAbsent; EAbsent; ES (BN (Rule "predicates")); ES (BN (Rule "functions")); ES (BN (e0)); ES (BT "RPAR")].
Definition p110 : act := Reduce (Rule "domain") [ES (BT "LPAR"); ES (BT "DEFINE"); ES (BN (Rule "domain_def")); EAbsent; EAbsent; ES (BN (Rule "constants")); ES (BN (Rule "predicates")); ES (BN (Rule "functions")); ES (BN (e0)); ES (BT "RPAR")].
Definition p111 : act := Reduce (Rule "domain") [ES (BT "LPAR"); ES (BT "DEFINE"); ES (BN (Rule "domain_def")); EAbsent; ES (BN (Rule "types")); ES (BN (Rule "constants")); EAbsent; ES (BN (Rule "functions")); ES (BN (e0)); ES (BT "RPAR")].
Definition p112 : act := Reduce (Rule "domain") [ES (BT "LPAR"); ES (BT "DEFINE"); ES (BN (Rule "domain_def")); EAbsent; ES (BN (Rule "types")); ES (BN (Rule "constants")); ES (BN (Rule "predicates")); ES (BN (Rule "functions")); ES (BT "RPAR")].
Definition p113 : act := Reduce (Rule "domain") [ES (BT "LPAR"); ES (BT "DEFINE"); ES (BN (Rule "domain_def")); EAbsent; ES (BN (Rule "types")); ES (BN (Rule "constants")); ES (BN (Rule "predicates")); EAbsent; ES (BN (e0)); ES (BT "RPAR")].
Definition p114 : act := Reduce (Rule "domain") [ES (BT "LPAR"); ES (BT "DEFINE"); ES (BN (Rule "domain_def")); EAbsent; ES (BN (Rule "types")); EAbsent; ES (BN (Rule "predicates")); ES (BN (Rule "functions")); ES (BN (e0)); ES (BT "RPAR")].
Definition p115 : act := Reduce (e2) [ES (BN (e2)); ES (BN (e1)); ES (BT "TYPE_SEP"); ES (BN (Rule "primitive_type"))].
Definition p116 : act := Reduce (e4) [ES (BN (e4)); ES (BN (e3)); ES (BT "TYPE_SEP"); ES (BN (Rule "f_type_def"))].
Definition p117 : act := Reduce (Rule "variable") [ES (BT "?"); ES (BT "NAME")].
Definition p118 : act := Reduce (e7) [ES (BN (e7)); ES (BN (Rule "variable"))].
Definition p119 : act := Reduce (Rule "typed_list_variable") [ES (BN (e8)); ES (BN (e7))].
Definition p120 : act := Reduce (Rule "atomic_function_skeleton") [ES (BT "LPAR"); ES (BT "NAME"); ES (BN (Rule "typed_list_variable")); ES (BT "RPAR")].
Definition p121 : act := Reduce (Rule "atomic_formula_skeleton") [ES (BT "LPAR"); ES (BT "NAME"); ES (BN (Rule "typed_list_variable")); ES (BT "RPAR")].
Definition p122 : act := Reduce (Rule "constant") [ES (BT "NAME")].
Definition p123 : act := Reduce (Rule "term") [ES (BN (Rule "constant"))].
Definition p124 : act := Reduce (e9) [ES (BN (Rule "term"))].
Definition p125 : act := Reduce (Rule "term") [ES (BN (Rule "variable"))].
Definition p126 : act := Reduce (Rule "atomic_formula_term") [ES (BT "LPAR"); ES (BN (Rule "predicate")); ES (BT "RPAR")].
Definition p127 : act := Reduce (e10) [ES (BN (Rule "gd"))].
Definition p128 : act := Reduce (Rule "gd") [ES (BT "LPAR"); ES (BT "AND"); ES (BT "RPAR")].
Definition p129 : act := Reduce (Rule "gd") [ES (BT "LPAR"); ES (BT "OR"); ES (BT "RPAR")].
Definition p130 : act := Reduce (Rule "f_head") [ES (BT "NAME")].
Definition p131 : act := Reduce (Rule "f_exp") [ES (BN (Rule "num_literal"))].
Definition p132 : act := Reduce (Rule "f_exp") [ES (BN (Rule "f_head"))].
Definition p133 : act := Reduce (Rule "num_literal") [ES (BT "NUMBER")].
Definition p134 : act := Reduce (Rule "domain") [ES (BT "LPAR"); ES (BT "DEFINE"); ES (BN (Rule "domain_def")); ES (BN (Rule "requirements")); EAbsent; ES (BN (Rule "constants")); ES (BN (Rule "predicates")); ES (BN (Rule "functions")); ES (BN (e0)); ES (BT "RPAR")].
Definition p135 : act := Reduce (Rule "domain") [ES (BT "LPAR"); ES (BT "DEFINE"); ES (BN (Rule "domain_def")); ES (BN (Rule "requirements")); ES (BN (Rule "types")); EAbsent; ES (BN (Rule "predicates")); ES (BN (Rule "functions")); ES (BN (e0)); ES (BT "RPAR")].
Definition p136 : act := Reduce (Rule "domain") [ES (BT "LPAR"); ES (BT "DEFINE"); ES (BN (Rule "domain_def")); ES (BN (Rule "requirements")); ES (BN (Rule "types")); ES (BN (Rule "constants")); ES (BN (Rule "predicates")); ES (BN (Rule "functions")); ES (BT "RPAR")].
Definition p137 : act := Reduce (Rule "domain") [ES (BT "LPAR"); ES (BT "DEFINE"); ES (BN (Rule "domain_def")); ES (BN (Rule "requirements")); ES (BN (Rule "types")); ES (BN (Rule "constants")); ES (BN (Rule "predicates")); EAbsent; ES (BN (e0)); ES (BT "RPAR")].
Definition p138 : act := Reduce (Rule "domain") [ES (BT "LPAR"); ES (BT "DEFINE"); ES (BN (Rule "domain_def")); ES (BN (Rule "requirements")); ES (BN (Rule "types")); ES (BN (Rule "constants")); EAbsent; ES (BN (Rule "functions")); ES (BN (e0)); ES (BT "RPAR")].
Definition p139 : act := Reduce (Rule "domain") [ES (BT "LPAR"); ES (BT "DEFINE"); ES (BN (Rule "domain_def")); EAbsent; ES (BN (Rule "types")); ES (BN (Rule "constants")); ES (BN (Rule "predicates")); ES (BN (Rule "functions")); ES (BN (e0)); ES (BT "RPAR")].
Definition p140 : act := Reduce (Rule "type_def") [ES (BN (Rule "primitive_type"))].
Definition p141 : act := Reduce (e8) [ES (BN (e7)); ES (BT "TYPE_SEP"); ES (BN (Rule "type_def"))].
Definition p142 : act := Reduce (Rule "action_parameters") [ES (BT "LPAR"); ES (BN (Rule "typed_list_variable")); ES (BT "RPAR")].
Definition p143 : act := Reduce (Rule "action_def") [ES (BT "LPAR"); ES (BT "ACTION"); ES (BT "NAME"); ES (BT "PARAMETERS"); ES (BN (Rule "action_parameters")); ES (BN (Rule "action_body_def")); ES (BT "RPAR")].
Definition p144 : act := Reduce (Rule "action_body_def") [ES (BT "PRECONDITION"); ES (BN (Rule "emptyor_pregd")); EAbsent; EAbsent].
Definition p145 : act := Reduce (Rule "emptyor_pregd") [ES (BN (Rule "gd"))].
Definition p146 : act := Reduce (Rule "action_body_def") [EAbsent; EAbsent; ES (BT "EFFECT"); ES (BN (Rule "emptyor_effect"))].
Definition p147 : act := Reduce (Rule "effect") [ES (BN (Rule "c_effect"))].
Definition p148 : act := Reduce (Rule "p_effect") [ES (BN (Rule "num_effect"))].
Definition p149 : act := Reduce (Rule "emptyor_effect") [ES (BN (Rule "effect"))].
Definition p150 : act := Reduce (Rule "c_effect") [ES (BN (Rule "p_effect"))].
Definition p151 : act := Reduce (Rule "p_effect") [ES (BN (Rule "atomic_formula_term"))].
Definition p152 : act := Reduce (Rule "gd") [ES (BT "LPAR"); ES (BT "NOT"); ES (BN (Rule "gd")); ES (BT "RPAR")].
Definition p153 : act := Reduce (e9) [ES (BN (e9)); ES (BN (Rule "term"))].
Definition p154 : act := Reduce (Rule "atomic_formula_term") [ES (BT "LPAR"); ES (BN (Rule "predicate")); ES (BN (e9)); ES (BT "RPAR")].
Definition p155 : act := Reduce (e10) [ES (BN (e10)); ES (BN (Rule "gd"))].
Definition p156 : act := Reduce (Rule "gd") [ES (BT "LPAR"); ES (BT "AND"); ES (BN (e10)); ES (BT "RPAR")].
Definition p157 : act := Reduce (Rule "gd") [ES (BT "LPAR"); ES (BT "OR"); ES (BN (e10)); ES (BT "RPAR")].
Definition p158 : act := Reduce (Rule "binary_op") [ES (BT "DIVIDE")].
Definition p159 : act := Reduce (Rule "multi_op") [ES (BT "TIMES")].
Definition p160 : act := Reduce (Rule "multi_op") [ES (BT "PLUS")].
Definition p161 : act := Reduce (Rule "domain") [ES (BT "LPAR"); ES (BT "DEFINE"); ES (BN (Rule "domain_def")); ES (BN (Rule "requirements")); ES (BN (Rule "types")); ES (BN (Rule "constants")); ES (BN (Rule "predicates")); ES (BN (Rule "functions")); ES (BN (e0)); ES (BT "RPAR")].
Definition p162 : act := Reduce (e8) [ES (BN (e8)); ES (BN (e7)); ES (BT "TYPE_SEP"); ES (BN (Rule "type_def"))].
Definition p163 : act := Reduce (Rule "emptyor_pregd") [ES (BT "LPAR"); ES (BT "RPAR")].
Definition p164 : act := Reduce (Rule "emptyor_effect") [ES (BT "LPAR"); ES (BT "RPAR")].
Definition p165 : act := Reduce (Rule "assign_op") [ES (BT "SCALE_UP")].
Definition p166 : act := Reduce (Rule "assign_op") [ES (BT "INCREASE")].
Definition p167 : act := Reduce (Rule "assign_op") [ES (BT "ASSIGN")].
Definition p168 : act := Reduce (Rule "assign_op") [ES (BT "DECREASE")].
Definition p169 : act := Reduce (Rule "assign_op") [ES (BT "SCALE_DOWN")].
Definition p170 : act := Reduce (Rule "atomic_formula_term") [ES (BT "LPAR"); ES (BT "EQUAL_OP"); ES (BN (Rule "term")); ES (BN (Rule "term")); ES (BT "RPAR")].
Definition p171 : act := Reduce (Rule "gd") [ES (BT "LPAR"); ES (BT "IMPLY"); ES (BN (Rule "gd")); ES (BN (Rule "gd")); ES (BT "RPAR")].
Definition p172 : act := Reduce (Rule "f_head") [ES (BT "LPAR"); ES (BT "NAME"); ES (BT "RPAR")].
Definition p173 : act := Reduce (Rule "gd") [ES (BT "LPAR"); ES (BN (Rule "binary_comp")); ES (BN (Rule "f_exp")); ES (BN (Rule "f_exp")); ES (BT "RPAR")].
Definition p174 : act := Reduce (e11) [ES (BN (Rule "primitive_type"))].
Definition p175 : act := Reduce (Rule "action_body_def") [ES (BT "PRECONDITION"); ES (BN (Rule "emptyor_pregd")); ES (BT "EFFECT"); ES (BN (Rule "emptyor_effect"))].
Definition p176 : act := Reduce (e12) [ES (BN (Rule "c_effect"))].
Definition p177 : act := Reduce (Rule "effect") [ES (BT "LPAR"); ES (BT "AND"); ES (BT "RPAR")].
Definition p178 : act := Reduce (e13) [ES (BN (Rule "effect"))].
Definition p179 : act := Reduce (e14) [ES (BN (Rule "f_exp"))].
Definition p180 : act := Reduce (Rule "f_exp") [ES (BT "LPAR"); ES (BT "MINUS"); ES (BN (Rule "f_exp")); ES (BT "RPAR")].
Definition p181 : act := Reduce (Rule "f_head") [ES (BT "LPAR"); ES (BT "NAME"); ES (BN (e9)); ES (BT "RPAR")].
Definition p182 : act := Reduce (Rule "type_def") [ES (BT "LPAR"); ES (BT "EITHER"); ES (BN (e11)); ES (BT "RPAR")].
Definition p183 : act := Reduce (e11) [ES (BN (e11)); ES (BN (Rule "primitive_type"))].
Definition p184 : act := Reduce (Rule "p_effect") [ES (BT "LPAR"); ES (BT "NOT"); ES (BN (Rule "atomic_formula_term")); ES (BT "RPAR")].
Definition p185 : act := Reduce (e12) [ES (BN (e12)); ES (BN (Rule "c_effect"))].
Definition p186 : act := Reduce (Rule "effect") [ES (BT "LPAR"); ES (BT "AND"); ES (BN (e12)); ES (BT "RPAR")].
Definition p187 : act := Reduce (Rule "cond_effect") [ES (BN (Rule "p_effect"))].
Definition p188 : act := Reduce (e13) [ES (BN (e13)); ES (BN (Rule "effect"))].
Definition p189 : act := Reduce (Rule "c_effect") [ES (BT "LPAR"); ES (BT "ONEOF"); ES (BN (e13)); ES (BT "RPAR")].
Definition p190 : act := Reduce (Rule "gd") [ES (BT "LPAR"); ES (BT "FORALL"); ES (BT "LPAR"); ES (BN (Rule "typed_list_variable")); ES (BT "RPAR"); ES (BN (Rule "gd")); ES (BT "RPAR")].
Definition p191 : act := Reduce (Rule "f_exp") [ES (BT "LPAR"); ES (BN (Rule "multi_op")); ES (BN (Rule "f_exp")); ES (BN (e14)); ES (BT "RPAR")].
Definition p192 : act := Reduce (e14) [ES (BN (e14)); ES (BN (Rule "f_exp"))].
Definition p193 : act := Reduce (Rule "f_exp") [ES (BT "LPAR"); ES (BN (Rule "binary_op")); ES (BN (Rule "f_exp")); ES (BN (Rule "f_exp")); ES (BT "RPAR")].
Definition p194 : act := Reduce (Rule "gd") [ES (BT "LPAR"); ES (BT "EXISTS"); ES (BT "LPAR"); ES (BN (Rule "typed_list_variable")); ES (BT "RPAR"); ES (BN (Rule "gd")); ES (BT "RPAR")].
Definition p195 : act := Reduce (Rule "num_effect") [ES (BT "LPAR"); ES (BN (Rule "assign_op")); ES (BN (Rule "f_head")); ES (BN (Rule "f_exp")); ES (BT "RPAR")].
Definition p196 : act := Reduce (Rule "c_effect") [ES (BT "LPAR"); ES (BT "WHEN"); ES (BN (Rule "gd")); ES (BN (Rule "cond_effect")); ES (BT "RPAR")].
Definition p197 : act := Reduce (Rule "cond_effect") [ES (BT "LPAR"); ES (BT "AND"); ES (BT "RPAR")].
Definition p198 : act := Reduce (e15) [ES (BN (Rule "p_effect"))].
Definition p199 : act := Reduce (Rule "cond_effect") [ES (BT "LPAR"); ES (BT "AND"); ES (BN (e15)); ES (BT "RPAR")].
Definition p200 : act := Reduce (e15) [ES (BN (e15)); ES (BN (Rule "p_effect"))].
Definition p201 : act := Reduce (Rule "c_effect") [ES (BT "LPAR"); ES (BT "FORALL"); ES (BT "LPAR"); ES (BN (Rule "typed_list_variable")); ES (BT "RPAR"); ES (BN (Rule "effect")); ES (BT "RPAR")].
Definition p202 : act := Reduce (Rule "problem_def") [ES (BT "LPAR"); ES (BT "PROBLEM"); ES (BT "NAME"); ES (BT "RPAR")].
Definition p203 : act := Reduce (Rule "problem") [ES (BT "LPAR"); ES (BT "DEFINE"); ES (BN (Rule "problem_def")); ES (BN (Rule "problem_domain")); EAbsent; EAbsent; ES (BN (Rule "init")); ES (BN (Rule "goal")); EAbsent; ES (BT "RPAR")].
Definition p204 : act := Reduce (e16) [ES (BN (Rule "init_el"))].
Definition p205 : act := Reduce (Rule "init_el") [ES (BN (Rule "literal_name"))].
Definition p206 : act := Reduce (Rule "literal_name") [ES (BN (Rule "atomic_formula_name"))].
Definition p207 : act := Reduce (Rule "init") [ES (BT "LPAR"); ES (BT "INIT"); ES (BT "RPAR")].
Definition p208 : act := Reduce (Rule "problem_domain") [ES (BT "LPAR"); ES (BT "DOMAIN_P"); ES (BT "NAME"); ES (BT "RPAR")].
Definition p209 : act := Reduce (Rule "problem") [ES (BT "LPAR"); ES (BT "DEFINE"); ES (BN (Rule "problem_def")); ES (BN (Rule "problem_domain")); ES (BN (Rule "requirements")); EAbsent; ES (BN (Rule "init")); ES (BN (Rule "goal")); EAbsent; ES (BT "RPAR")].
Definition p210 : act := Reduce (Rule "problem") [ES (BT "LPAR"); ES (BT "DEFINE"); ES (BN (Rule "problem_def")); ES (BN (Rule "problem_domain")); EAbsent; EAbsent; ES (BN (Rule "init")); ES (BN (Rule "goal")); ES (BN (Rule "metric_spec")); ES (BT "RPAR")].
Definition p211 : act := Reduce (Rule "objects") [ES (BT "LPAR"); ES (BT "OBJECTS"); ES (BN (Rule "typed_list_name")); ES (BT "RPAR")].
Definition p212 : act := Reduce (e16) [ES (BN (e16)); ES (BN (Rule "init_el"))].
Definition p213 : act := Reduce (Rule "init") [ES (BT "LPAR"); ES (BT "INIT"); ES (BN (e16)); ES (BT "RPAR")].
Definition p214 : act := Reduce (Rule "problem") [ES (BT "LPAR"); ES (BT "DEFINE"); ES (BN (Rule "problem_def")); ES (BN (Rule "problem_domain")); EAbsent; ES (BN (Rule "objects")); ES (BN (Rule "init")); ES (BN (Rule "goal")); EAbsent; ES (BT "RPAR")].
Definition p215 : act := Reduce (Rule "problem") [ES (BT "LPAR"); ES (BT "DEFINE"); ES (BN (Rule "problem_def")); ES (BN (Rule "problem_domain")); ES (BN (Rule "requirements")); ES (BN (Rule "objects")); ES (BN (Rule "init")); ES (BN (Rule "goal")); EAbsent; ES (BT "RPAR")].
Definition p216 : act := Reduce (Rule "problem") [ES (BT "LPAR"); ES (BT "DEFINE"); ES (BN (Rule "problem_def")); ES (BN (Rule "problem_domain")); ES (BN (Rule "requirements")); EAbsent; ES (BN (Rule "init")); ES (BN (Rule "goal")); ES (BN (Rule "metric_spec")); ES (BT "RPAR")].
Definition p217 : act := Reduce (Rule "optimization") [ES (BT "MINIMIZE")].
Definition p218 : act := Reduce (Rule "optimization") [ES (BT "MAXIMIZE")].
Definition p219 : act := Reduce (Rule "goal") [ES (BT "LPAR"); ES (BT "GOAL"); ES (BN (Rule "gd")); ES (BT "RPAR")].
Definition p220 : act := Reduce (Rule "atomic_formula_name") [ES (BT "LPAR"); ES (BN (Rule "predicate")); ES (BT "RPAR")].
Definition p221 : act := Reduce (Rule "basic_function_term") [ES (BT "NAME")].
Definition p222 : act := Reduce (Rule "problem") [ES (BT "LPAR"); ES (BT "DEFINE"); ES (BN (Rule "problem_def")); ES (BN (Rule "problem_domain")); EAbsent; ES (BN (Rule "objects")); ES (BN (Rule "init")); ES (BN (Rule "goal")); ES (BN (Rule "metric_spec")); ES (BT "RPAR")].
Definition p223 : act := Reduce (Rule "problem") [ES (BT "LPAR"); ES (BT "DEFINE"); ES (BN (Rule "problem_def")); ES (BN (Rule "problem_domain")); ES (BN (Rule "requirements")); ES (BN (Rule "objects")); ES (BN (Rule "init")); ES (BN (Rule "goal")); ES (BN (Rule "metric_spec")); ES (BT "RPAR")].
Definition p224 : act := Reduce (Rule "metric_f_exp") [ES (BN (Rule "basic_function_term"))].
Definition p225 : act := Reduce (Rule "metric_f_exp") [ES (BT "NUMBER")].
Definition p226 : act := Reduce (Rule "literal_name") [ES (BT "LPAR"); ES (BT "NOT"); ES (BN (Rule "atomic_formula_name")); ES (BT "RPAR")].
Definition p227 : act := Reduce (Rule "atomic_formula_name") [ES (BT "LPAR"); ES (BN (Rule "predicate")); ES (BN (e1)); ES (BT "RPAR")].
Definition p228 : act := Reduce (Rule "metric_spec") [ES (BT "LPAR"); ES (BT "METRIC"); ES (BN (Rule "optimization")); ES (BN (Rule "metric_f_exp")); ES (BT "RPAR")].
Definition p229 : act := Reduce (Rule "init_el") [ES (BT "LPAR"); ES (BT "EQUAL_OP"); ES (BN (Rule "basic_function_term")); ES (BN (Rule "num_literal")); ES (BT "RPAR")].
Definition p230 : act := Reduce (Rule "basic_function_term") [ES (BT "LPAR"); ES (BT "NAME"); ES (BT "RPAR")].
Definition p231 : act := Reduce (Rule "basic_function_term") [ES (BT "LPAR"); ES (BT "NAME"); ES (BN (e1)); ES (BT "RPAR")].
Definition p232 : act := Reduce (e17) [ES (BN (Rule "metric_f_exp"))].
Definition p233 : act := Reduce (Rule "metric_f_exp") [ES (BT "LPAR"); ES (BT "MINUS"); ES (BN (Rule "metric_f_exp")); ES (BT "RPAR")].
Definition p234 : act := Reduce (e17) [ES (BN (e17)); ES (BN (Rule "metric_f_exp"))].
Definition p235 : act := Reduce (Rule "metric_f_exp") [ES (BT "LPAR"); ES (BN (Rule "multi_op")); ES (BN (Rule "metric_f_exp")); ES (BN (e17)); ES (BT "RPAR")].
Definition p236 : act := Reduce (Rule "metric_f_exp") [ES (BT "LPAR"); ES (BN (Rule "binary_op")); ES (BN (Rule "metric_f_exp")); ES (BN (Rule "metric_f_exp")); ES (BT "RPAR")].
Definition p237 : act := Reduce (Rule "plan") [].
Definition p238 : act := Reduce (Rule "plan") [ES (BN (e18))].
Definition p239 : act := Reduce (e18) [ES (BN (Rule "ground_action"))].
Definition p240 : act := Reduce (e18) [ES (BN (e18)); ES (BN (Rule "ground_action"))].
Definition p241 : act := Reduce (Rule "ground_action") [ES (BT "LPAR"); ES (BN (Rule "predicate")); ES (BT "RPAR")].
Definition p242 : act := Reduce (Rule "ground_action") [ES (BT "LPAR"); ES (BN (Rule "predicate")); ES (BN (e1)); ES (BT "RPAR")].
Definition domain_actions : list (list (string * act)) :=
  [[("LPAR", Shift 2)];
   [("DEFINE", Shift 4)];
   [];
   [("LPAR", Shift 6)];
   [("LPAR", Shift 7); ("RPAR", Shift 17)];
   [("DOMAIN", Shift 18)];
   [("ACTION", Shift 23); ("CONSTANTS", Shift 19); ("DERIVED", Shift 25); ("FUNCTIONS", Shift 20); ("PREDICATES", Shift 22); ("REQUIREMENTS", Shift 21); ("TYPES", Shift 24)];
   [("LPAR", Shift 28); ("RPAR", Shift 32)];
   [("LPAR", Shift 35); ("RPAR", Shift 34)];
   [("LPAR", Shift 40); ("RPAR", Shift 39)];
   [("LPAR", p0); ("RPAR", p0)];
   [("LPAR", Shift 45); ("RPAR", Shift 44)];
   [("LPAR", Shift 40); ("RPAR", Shift 48)];
   [("LPAR", p1); ("RPAR", p1)];
   [("LPAR", Shift 50); ("RPAR", Shift 51)];
   [("LPAR", p2); ("RPAR", p2)];
   [("$END", p3)];
   [("NAME", Shift 53)];
   [("NAME", Shift 56); ("RPAR", p4)];
   [("LPAR", Shift 62)];
   [("ACTION_COSTS", Shift 78); ("ADL", Shift 69); ("CONDITIONAL_EFFECTS", Shift 75); ("DERIVED_PREDICATES", Shift 72); ("DIS_PRECONDITION", Shift 73); ("EQUALITY", Shift 65); ("EXISTENTIAL_PRECONDITIONS", Shift 63); ("FLUENTS", Shift 79); ("NEG_PRECONDITION", Shift 70); ("NON_DETERMINISTIC", Shift 67); ("NUMERIC_FLUENTS", Shift 76); ("QUANTIFIED_PRECONDITIONS", Shift 66); ("STRIPS", Shift 64); ("TYPING", Shift 74); ("UNIVERSAL_PRECONDITIONS", Shift 77)];
   [("LPAR", Shift 81)];
   [("NAME", Shift 83)];
   [("NAME", Shift 56); ("RPAR", p4)];
   [("LPAR", Shift 81)];
   [("LPAR", Shift 35); ("RPAR", Shift 89)];
   [("LPAR", Shift 45); ("RPAR", Shift 94)];
   [("ACTION", Shift 23); ("CONSTANTS", Shift 19); ("DERIVED", Shift 25); ("FUNCTIONS", Shift 20); ("PREDICATES", Shift 22); ("TYPES", Shift 24)];
   [("LPAR", Shift 50); ("RPAR", Shift 97)];
   [("LPAR", Shift 40); ("RPAR", Shift 99)];
   [("LPAR", Shift 40); ("RPAR", Shift 100)];
   [("$END", p5)];
   [("LPAR", Shift 50); ("RPAR", Shift 103)];
   [("$END", p6)];
   [("ACTION", Shift 23); ("DERIVED", Shift 25); ("FUNCTIONS", Shift 20); ("PREDICATES", Shift 22)];
   [("LPAR", Shift 40); ("RPAR", Shift 105)];
   [("LPAR", Shift 40); ("RPAR", Shift 106)];
   [("LPAR", Shift 40); ("RPAR", Shift 107)];
   [("$END", p7)];
   [("ACTION", Shift 23); ("DERIVED", Shift 25)];
   [("LPAR", Shift 40); ("RPAR", Shift 109)];
   [("LPAR", Shift 35); ("RPAR", Shift 113)];
   [("LPAR", Shift 40); ("RPAR", Shift 114)];
   [("$END", p8)];
   [("ACTION", Shift 23); ("CONSTANTS", Shift 19); ("DERIVED", Shift 25); ("FUNCTIONS", Shift 20); ("PREDICATES", Shift 22)];
   [("LPAR", Shift 50); ("RPAR", Shift 117)];
   [("LPAR", p9); ("RPAR", p9)];
   [("$END", p10)];
   [("LPAR", Shift 40); ("RPAR", Shift 118)];
   [("ACTION", Shift 23); ("DERIVED", Shift 25); ("FUNCTIONS", Shift 20)];
   [("$END", p11)];
   [("LPAR", Shift 40); ("RPAR", Shift 120)];
   [("RPAR", Shift 121)];
   [("NAME", Shift 122); ("RPAR", p12); ("TYPE_SEP", Shift 123)];
   [("NAME", Shift 56); ("RPAR", p13)];
   [("NAME", p14); ("RPAR", p14); ("TYPE_SEP", p14)];
   [("RPAR", Shift 125)];
   [("LPAR", Shift 62); ("RPAR", p15); ("TYPE_SEP", Shift 127)];
   [("LPAR", Shift 62); ("RPAR", p16)];
   [("LPAR", p17); ("RPAR", p17); ("TYPE_SEP", p17)];
   [("RPAR", Shift 129)];
   [("NAME", Shift 130)];
   [("ACTION_COSTS", p18); ("ADL", p18); ("CONDITIONAL_EFFECTS", p18); ("DERIVED_PREDICATES", p18); ("DIS_PRECONDITION", p18); ("EQUALITY", p18); ("EXISTENTIAL_PRECONDITIONS", p18); ("FLUENTS", p18); ("NEG_PRECONDITION", p18); ("NON_DETERMINISTIC", p18); ("NUMERIC_FLUENTS", p18); ("QUANTIFIED_PRECONDITIONS", p18); ("RPAR", p18); ("STRIPS", p18); ("TYPING", p18); ("UNIVERSAL_PRECONDITIONS", p18)];
   [("ACTION_COSTS", p19); ("ADL", p19); ("CONDITIONAL_EFFECTS", p19); ("DERIVED_PREDICATES", p19); ("DIS_PRECONDITION", p19); ("EQUALITY", p19); ("EXISTENTIAL_PRECONDITIONS", p19); ("FLUENTS", p19); ("NEG_PRECONDITION", p19); ("NON_DETERMINISTIC", p19); ("NUMERIC_FLUENTS", p19); ("QUANTIFIED_PRECONDITIONS", p19); ("RPAR", p19); ("STRIPS", p19); ("TYPING", p19); ("UNIVERSAL_PRECONDITIONS", p19)];
   [("ACTION_COSTS", p20); ("ADL", p20); ("CONDITIONAL_EFFECTS", p20); ("DERIVED_PREDICATES", p20); ("DIS_PRECONDITION", p20); ("EQUALITY", p20); ("EXISTENTIAL_PRECONDITIONS", p20); ("FLUENTS", p20); ("NEG_PRECONDITION", p20); ("NON_DETERMINISTIC", p20); ("NUMERIC_FLUENTS", p20); ("QUANTIFIED_PRECONDITIONS", p20); ("RPAR", p20); ("STRIPS", p20); ("TYPING", p20); ("UNIVERSAL_PRECONDITIONS", p20)];
   [("ACTION_COSTS", p21); ("ADL", p21); ("CONDITIONAL_EFFECTS", p21); ("DERIVED_PREDICATES", p21); ("DIS_PRECONDITION", p21); ("EQUALITY", p21); ("EXISTENTIAL_PRECONDITIONS", p21); ("FLUENTS", p21); ("NEG_PRECONDITION", p21); ("NON_DETERMINISTIC", p21); ("NUMERIC_FLUENTS", p21); ("QUANTIFIED_PRECONDITIONS", p21); ("RPAR", p21); ("STRIPS", p21); ("TYPING", p21); ("UNIVERSAL_PRECONDITIONS", p21)];
   [("ACTION_COSTS", p22); ("ADL", p22); ("CONDITIONAL_EFFECTS", p22); ("DERIVED_PREDICATES", p22); ("DIS_PRECONDITION", p22); ("EQUALITY", p22); ("EXISTENTIAL_PRECONDITIONS", p22); ("FLUENTS", p22); ("NEG_PRECONDITION", p22); ("NON_DETERMINISTIC", p22); ("NUMERIC_FLUENTS", p22); ("QUANTIFIED_PRECONDITIONS", p22); ("RPAR", p22); ("STRIPS", p22); ("TYPING", p22); ("UNIVERSAL_PRECONDITIONS", p22)];
   [("ACTION_COSTS", p23); ("ADL", p23); ("CONDITIONAL_EFFECTS", p23); ("DERIVED_PREDICATES", p23); ("DIS_PRECONDITION", p23); ("EQUALITY", p23); ("EXISTENTIAL_PRECONDITIONS", p23); ("FLUENTS", p23); ("NEG_PRECONDITION", p23); ("NON_DETERMINISTIC", p23); ("NUMERIC_FLUENTS", p23); ("QUANTIFIED_PRECONDITIONS", p23); ("RPAR", p23); ("STRIPS", p23); ("TYPING", p23); ("UNIVERSAL_PRECONDITIONS", p23)];
   [("ACTION_COSTS", p24); ("ADL", p24); ("CONDITIONAL_EFFECTS", p24); ("DERIVED_PREDICATES", p24); ("DIS_PRECONDITION", p24); ("EQUALITY", p24); ("EXISTENTIAL_PRECONDITIONS", p24); ("FLUENTS", p24); ("NEG_PRECONDITION", p24); ("NON_DETERMINISTIC", p24); ("NUMERIC_FLUENTS", p24); ("QUANTIFIED_PRECONDITIONS", p24); ("RPAR", p24); ("STRIPS", p24); ("TYPING", p24); ("UNIVERSAL_PRECONDITIONS", p24)];
   [("ACTION_COSTS", p25); ("ADL", p25); ("CONDITIONAL_EFFECTS", p25); ("DERIVED_PREDICATES", p25); ("DIS_PRECONDITION", p25); ("EQUALITY", p25); ("EXISTENTIAL_PRECONDITIONS", p25); ("FLUENTS", p25); ("NEG_PRECONDITION", p25); ("NON_DETERMINISTIC", p25); ("NUMERIC_FLUENTS", p25); ("QUANTIFIED_PRECONDITIONS", p25); ("RPAR", p25); ("STRIPS", p25); ("TYPING", p25); ("UNIVERSAL_PRECONDITIONS", p25)];
   [("ACTION_COSTS", Shift 78); ("ADL", Shift 69); ("CONDITIONAL_EFFECTS", Shift 75); ("DERIVED_PREDICATES", Shift 72); ("DIS_PRECONDITION", Shift 73); ("EQUALITY", Shift 65); ("EXISTENTIAL_PRECONDITIONS", Shift 63); ("FLUENTS", Shift 79); ("NEG_PRECONDITION", Shift 70); ("NON_DETERMINISTIC", Shift 67); ("NUMERIC_FLUENTS", Shift 76); ("QUANTIFIED_PRECONDITIONS", Shift 66); ("RPAR", Shift 132); ("STRIPS", Shift 64); ("TYPING", Shift 74); ("UNIVERSAL_PRECONDITIONS", Shift 77)];
   [("ACTION_COSTS", p26); ("ADL", p26); ("CONDITIONAL_EFFECTS", p26); ("DERIVED_PREDICATES", p26); ("DIS_PRECONDITION", p26); ("EQUALITY", p26); ("EXISTENTIAL_PRECONDITIONS", p26); ("FLUENTS", p26); ("NEG_PRECONDITION", p26); ("NON_DETERMINISTIC", p26); ("NUMERIC_FLUENTS", p26); ("QUANTIFIED_PRECONDITIONS", p26); ("RPAR", p26); ("STRIPS", p26); ("TYPING", p26); ("UNIVERSAL_PRECONDITIONS", p26)];
   [("ACTION_COSTS", p27); ("ADL", p27); ("CONDITIONAL_EFFECTS", p27); ("DERIVED_PREDICATES", p27); ("DIS_PRECONDITION", p27); ("EQUALITY", p27); ("EXISTENTIAL_PRECONDITIONS", p27); ("FLUENTS", p27); ("NEG_PRECONDITION", p27); ("NON_DETERMINISTIC", p27); ("NUMERIC_FLUENTS", p27); ("QUANTIFIED_PRECONDITIONS", p27); ("RPAR", p27); ("STRIPS", p27); ("TYPING", p27); ("UNIVERSAL_PRECONDITIONS", p27)];
   [("ACTION_COSTS", p28); ("ADL", p28); ("CONDITIONAL_EFFECTS", p28); ("DERIVED_PREDICATES", p28); ("DIS_PRECONDITION", p28); ("EQUALITY", p28); ("EXISTENTIAL_PRECONDITIONS", p28); ("FLUENTS", p28); ("NEG_PRECONDITION", p28); ("NON_DETERMINISTIC", p28); ("NUMERIC_FLUENTS", p28); ("QUANTIFIED_PRECONDITIONS", p28); ("RPAR", p28); ("STRIPS", p28); ("TYPING", p28); ("UNIVERSAL_PRECONDITIONS", p28)];
   [("ACTION_COSTS", p29); ("ADL", p29); ("CONDITIONAL_EFFECTS", p29); ("DERIVED_PREDICATES", p29); ("DIS_PRECONDITION", p29); ("EQUALITY", p29); ("EXISTENTIAL_PRECONDITIONS", p29); ("FLUENTS", p29); ("NEG_PRECONDITION", p29); ("NON_DETERMINISTIC", p29); ("NUMERIC_FLUENTS", p29); ("QUANTIFIED_PRECONDITIONS", p29); ("RPAR", p29); ("STRIPS", p29); ("TYPING", p29); ("UNIVERSAL_PRECONDITIONS", p29)];
   [("ACTION_COSTS", p30); ("ADL", p30); ("CONDITIONAL_EFFECTS", p30); ("DERIVED_PREDICATES", p30); ("DIS_PRECONDITION", p30); ("EQUALITY", p30); ("EXISTENTIAL_PRECONDITIONS", p30); ("FLUENTS", p30); ("NEG_PRECONDITION", p30); ("NON_DETERMINISTIC", p30); ("NUMERIC_FLUENTS", p30); ("QUANTIFIED_PRECONDITIONS", p30); ("RPAR", p30); ("STRIPS", p30); ("TYPING", p30); ("UNIVERSAL_PRECONDITIONS", p30)];
   [("ACTION_COSTS", p31); ("ADL", p31); ("CONDITIONAL_EFFECTS", p31); ("DERIVED_PREDICATES", p31); ("DIS_PRECONDITION", p31); ("EQUALITY", p31); ("EXISTENTIAL_PRECONDITIONS", p31); ("FLUENTS", p31); ("NEG_PRECONDITION", p31); ("NON_DETERMINISTIC", p31); ("NUMERIC_FLUENTS", p31); ("QUANTIFIED_PRECONDITIONS", p31); ("RPAR", p31); ("STRIPS", p31); ("TYPING", p31); ("UNIVERSAL_PRECONDITIONS", p31)];
   [("ACTION_COSTS", p32); ("ADL", p32); ("CONDITIONAL_EFFECTS", p32); ("DERIVED_PREDICATES", p32); ("DIS_PRECONDITION", p32); ("EQUALITY", p32); ("EXISTENTIAL_PRECONDITIONS", p32); ("FLUENTS", p32); ("NEG_PRECONDITION", p32); ("NON_DETERMINISTIC", p32); ("NUMERIC_FLUENTS", p32); ("QUANTIFIED_PRECONDITIONS", p32); ("RPAR", p32); ("STRIPS", p32); ("TYPING", p32); ("UNIVERSAL_PRECONDITIONS", p32)];
   [("ACTION_COSTS", p33); ("ADL", p33); ("CONDITIONAL_EFFECTS", p33); ("DERIVED_PREDICATES", p33); ("DIS_PRECONDITION", p33); ("EQUALITY", p33); ("EXISTENTIAL_PRECONDITIONS", p33); ("FLUENTS", p33); ("NEG_PRECONDITION", p33); ("NON_DETERMINISTIC", p33); ("NUMERIC_FLUENTS", p33); ("QUANTIFIED_PRECONDITIONS", p33); ("RPAR", p33); ("STRIPS", p33); ("TYPING", p33); ("UNIVERSAL_PRECONDITIONS", p33)];
   [("LPAR", Shift 81); ("RPAR", Shift 134)];
   [("NAME", Shift 135)];
   [("LPAR", p34); ("RPAR", p34)];
   [("PARAMETERS", Shift 136)];
   [("RPAR", Shift 137)];
   [("LPAR", Shift 138)];
   [("LPAR", Shift 50); ("RPAR", Shift 143)];
   [("LPAR", Shift 40); ("RPAR", Shift 145)];
   [("LPAR", Shift 40); ("RPAR", Shift 146)];
   [("$END", p35)];
   [("LPAR", Shift 50); ("RPAR", Shift 149)];
   [("LPAR", Shift 35); ("RPAR", Shift 153)];
   [("LPAR", Shift 40); ("RPAR", Shift 154)];
   [("LPAR", Shift 40); ("RPAR", Shift 156)];
   [("$END", p36)];
   [("LPAR", Shift 40); ("RPAR", Shift 158)];
   [("LPAR", Shift 40); ("RPAR", Shift 159)];
   [("$END", p37)];
   [("LPAR", Shift 40); ("RPAR", Shift 160)];
   [("$END", p38)];
   [("$END", p39)];
   [("LPAR", Shift 40); ("RPAR", Shift 161)];
   [("LPAR", Shift 40); ("RPAR", Shift 162)];
   [("$END", p40)];
   [("LPAR", Shift 40); ("RPAR", Shift 164)];
   [("$END", p41)];
   [("$END", p42)];
   [("$END", p43)];
   [("LPAR", Shift 40); ("RPAR", Shift 165)];
   [("$END", p44)];
   [("LPAR", Shift 40); ("RPAR", Shift 166)];
   [("LPAR", Shift 40); ("RPAR", Shift 168)];
   [("LPAR", Shift 50); ("RPAR", Shift 171)];
   [("$END", p45)];
   [("$END", p46)];
   [("LPAR", Shift 40); ("RPAR", Shift 172)];
   [("LPAR", Shift 40); ("RPAR", Shift 173)];
   [("$END", p47)];
   [("$END", p48)];
   [("LPAR", Shift 40); ("RPAR", Shift 175)];
   [("$END", p49)];
   [("LPAR", p50); ("RPAR", p50)];
   [("NAME", p51); ("RPAR", p51); ("TYPE_SEP", p51)];
   [("NAME", Shift 177); ("OBJECT", Shift 178)];
   [("NAME", Shift 122); ("RPAR", p52); ("TYPE_SEP", Shift 179)];
   [("LPAR", p53); ("RPAR", p53)];
   [("LPAR", p54); ("RPAR", p54); ("TYPE_SEP", p54)];
   [("TYPE_NUMBER", Shift 181)];
   [("LPAR", Shift 62); ("RPAR", p55); ("TYPE_SEP", Shift 182)];
   [("LPAR", p56); ("RPAR", p56)];
   [("?", Shift 183); ("RPAR", p57)];
   [("ACTION_COSTS", p58); ("ADL", p58); ("CONDITIONAL_EFFECTS", p58); ("DERIVED_PREDICATES", p58); ("DIS_PRECONDITION", p58); ("EQUALITY", p58); ("EXISTENTIAL_PRECONDITIONS", p58); ("FLUENTS", p58); ("NEG_PRECONDITION", p58); ("NON_DETERMINISTIC", p58); ("NUMERIC_FLUENTS", p58); ("QUANTIFIED_PRECONDITIONS", p58); ("RPAR", p58); ("STRIPS", p58); ("TYPING", p58); ("UNIVERSAL_PRECONDITIONS", p58)];
   [("LPAR", p59); ("RPAR", p59)];
   [("LPAR", p60); ("RPAR", p60)];
   [("LPAR", p61); ("RPAR", p61)];
   [("?", Shift 183); ("RPAR", p57)];
   [("LPAR", Shift 189)];
   [("LPAR", p62); ("RPAR", p62)];
   [("AND", Shift 195); ("EQUAL_OP", Shift 194); ("EXISTS", Shift 204); ("FORALL", Shift 191); ("GREATER_EQUAL_OP", Shift 202); ("GREATER_OP", Shift 201); ("IMPLY", Shift 196); ("LESSER_EQUAL_OP", Shift 199); ("LESSER_OP", Shift 198); ("NAME", Shift 200); ("NOT", Shift 192); ("OR", Shift 197)];
   [("EFFECT", p63); ("LPAR", p63); ("RPAR", p63)];
   [("RPAR", Shift 205)];
   [("LPAR", Shift 40); ("RPAR", Shift 206)];
   [("LPAR", Shift 40); ("RPAR", Shift 208)];
   [("$END", p64)];
   [("LPAR", Shift 40); ("RPAR", Shift 209)];
   [("$END", p65)];
   [("$END", p66)];
   [("LPAR", Shift 40); ("RPAR", Shift 210)];
   [("LPAR", Shift 40); ("RPAR", Shift 212)];
   [("$END", p67)];
   [("LPAR", Shift 50); ("RPAR", Shift 215)];
   [("LPAR", Shift 40); ("RPAR", Shift 216)];
   [("LPAR", Shift 40); ("RPAR", Shift 218)];
   [("$END", p68)];
   [("$END", p69)];
   [("LPAR", Shift 40); ("RPAR", Shift 219)];
   [("$END", p70)];
   [("LPAR", Shift 40); ("RPAR", Shift 220)];
   [("$END", p71)];
   [("$END", p72)];
   [("$END", p73)];
   [("$END", p74)];
   [("$END", p75)];
   [("LPAR", Shift 40); ("RPAR", Shift 221)];
   [("$END", p76)];
   [("$END", p77)];
   [("$END", p78)];
   [("LPAR", Shift 40); ("RPAR", Shift 222)];
   [("$END", p79)];
   [("LPAR", Shift 40); ("RPAR", Shift 224)];
   [("LPAR", Shift 40); ("RPAR", Shift 225)];
   [("$END", p80)];
   [("$END", p81)];
   [("$END", p82)];
   [("LPAR", Shift 40); ("RPAR", Shift 226)];
   [("$END", p83)];
   [("NAME", p84); ("RPAR", p84)];
   [("?", p85); ("NAME", p85); ("OBJECT", p85); ("RPAR", p85)];
   [("?", p86); ("NAME", p86); ("OBJECT", p86); ("RPAR", p86)];
   [("NAME", Shift 177); ("OBJECT", Shift 178)];
   [("LPAR", p87); ("RPAR", p87)];
   [("LPAR", p88); ("RPAR", p88)];
   [("TYPE_NUMBER", Shift 181)];
   [("NAME", Shift 229)];
   [("?", Shift 183); ("RPAR", p89); ("TYPE_SEP", Shift 231)];
   [("?", Shift 183); ("RPAR", p90)];
   [("?", p91); ("RPAR", p91); ("TYPE_SEP", p91)];
   [("RPAR", Shift 233)];
   [("RPAR", Shift 234)];
   [("?", Shift 183); ("RPAR", p57)];
   [("EFFECT", Shift 238); ("PRECONDITION", Shift 237); ("RPAR", p92)];
   [("LPAR", Shift 239)];
   [("LPAR", Shift 138)];
   [("?", Shift 183); ("NAME", Shift 242); ("RPAR", Shift 246)];
   [("?", Shift 183); ("LPAR", p93); ("NAME", Shift 242); ("NUMBER", p93)];
   [("LPAR", Shift 138); ("RPAR", Shift 250)];
   [("LPAR", Shift 138)];
   [("LPAR", Shift 138); ("RPAR", Shift 253)];
   [("LPAR", p94); ("NAME", p94); ("NUMBER", p94)];
   [("LPAR", p95); ("NAME", p95); ("NUMBER", p95)];
   [("?", p96); ("NAME", p96); ("RPAR", p96)];
   [("LPAR", p97); ("NAME", p97); ("NUMBER", p97)];
   [("LPAR", p98); ("NAME", p98); ("NUMBER", p98)];
   [("LPAR", Shift 254); ("NAME", Shift 255); ("NUMBER", Shift 259)];
   [("LPAR", Shift 260)];
   [("LPAR", p99); ("RPAR", p99)];
   [("$END", p100)];
   [("LPAR", Shift 40); ("RPAR", Shift 261)];
   [("$END", p101)];
   [("$END", p102)];
   [("$END", p103)];
   [("LPAR", Shift 40); ("RPAR", Shift 262)];
   [("$END", p104)];
   [("LPAR", Shift 40); ("RPAR", Shift 264)];
   [("LPAR", Shift 40); ("RPAR", Shift 265)];
   [("$END", p105)];
   [("$END", p106)];
   [("LPAR", Shift 40); ("RPAR", Shift 266)];
   [("$END", p107)];
   [("$END", p108)];
   [("$END", p109)];
   [("$END", p110)];
   [("$END", p111)];
   [("LPAR", Shift 40); ("RPAR", Shift 267)];
   [("$END", p112)];
   [("$END", p113)];
   [("$END", p114)];
   [("NAME", p115); ("RPAR", p115)];
   [("LPAR", p116); ("RPAR", p116)];
   [("?", p117); ("NAME", p117); ("RPAR", p117); ("TYPE_SEP", p117)];
   [("?", p118); ("RPAR", p118); ("TYPE_SEP", p118)];
   [("LPAR", Shift 268); ("NAME", Shift 177); ("OBJECT", Shift 178)];
   [("?", Shift 183); ("RPAR", p119); ("TYPE_SEP", Shift 271)];
   [("LPAR", p120); ("RPAR", p120); ("TYPE_SEP", p120)];
   [("LPAR", p121); ("RPAR", p121)];
   [("RPAR", Shift 272)];
   [("RPAR", Shift 273)];
   [("LPAR", Shift 274)];
   [("LPAR", Shift 278)];
   [("?", Shift 183); ("RPAR", p57)];
   [("RPAR", Shift 285)];
   [("?", Shift 183); ("NAME", Shift 242); ("RPAR", Shift 287)];
   [("?", p122); ("NAME", p122); ("RPAR", p122)];
   [("?", p123); ("NAME", p123); ("RPAR", p123)];
   [("?", p124); ("NAME", p124); ("RPAR", p124)];
   [("?", p125); ("NAME", p125); ("RPAR", p125)];
   [("EFFECT", p126); ("LPAR", p126); ("RPAR", p126)];
   [("?", Shift 183); ("NAME", Shift 242)];
   [("LPAR", p127); ("RPAR", p127)];
   [("LPAR", Shift 138); ("RPAR", Shift 290)];
   [("EFFECT", p128); ("LPAR", p128); ("RPAR", p128)];
   [("LPAR", Shift 138)];
   [("LPAR", Shift 138); ("RPAR", Shift 292)];
   [("EFFECT", p129); ("LPAR", p129); ("RPAR", p129)];
   [("DIVIDE", Shift 296); ("MINUS", Shift 294); ("NAME", Shift 295); ("PLUS", Shift 298); ("TIMES", Shift 297)];
   [("LPAR", p130); ("NAME", p130); ("NUMBER", p130); ("RPAR", p130)];
   [("LPAR", p131); ("NAME", p131); ("NUMBER", p131); ("RPAR", p131)];
   [("LPAR", Shift 254); ("NAME", Shift 255); ("NUMBER", Shift 259)];
   [("LPAR", p132); ("NAME", p132); ("NUMBER", p132); ("RPAR", p132)];
   [("LPAR", p133); ("NAME", p133); ("NUMBER", p133); ("RPAR", p133)];
   [("?", Shift 183); ("RPAR", p57)];
   [("$END", p134)];
   [("$END", p135)];
   [("LPAR", Shift 40); ("RPAR", Shift 302)];
   [("$END", p136)];
   [("$END", p137)];
   [("$END", p138)];
   [("$END", p139)];
   [("EITHER", Shift 303)];
   [("?", p140); ("RPAR", p140)];
   [("?", p141); ("RPAR", p141)];
   [("LPAR", Shift 268); ("NAME", Shift 177); ("OBJECT", Shift 178)];
   [("EFFECT", p142); ("PRECONDITION", p142); ("RPAR", p142)];
   [("LPAR", p143); ("RPAR", p143)];
   [("AND", Shift 195); ("EQUAL_OP", Shift 194); ("EXISTS", Shift 204); ("FORALL", Shift 191); ("GREATER_EQUAL_OP", Shift 202); ("GREATER_OP", Shift 201); ("IMPLY", Shift 196); ("LESSER_EQUAL_OP", Shift 199); ("LESSER_OP", Shift 198); ("NAME", Shift 200); ("NOT", Shift 192); ("OR", Shift 197); ("RPAR", Shift 305)];
   [("EFFECT", Shift 306); ("RPAR", p144)];
   [("EFFECT", p145); ("RPAR", p145)];
   [("RPAR", p146)];
   [("AND", Shift 309); ("ASSIGN", Shift 316); ("DECREASE", Shift 317); ("EQUAL_OP", Shift 310); ("FORALL", Shift 319); ("INCREASE", Shift 314); ("NAME", Shift 200); ("NOT", Shift 308); ("ONEOF", Shift 315); ("RPAR", Shift 311); ("SCALE_DOWN", Shift 318); ("SCALE_UP", Shift 313); ("WHEN", Shift 312)];
   [("LPAR", p147); ("RPAR", p147)];
   [("LPAR", p148); ("RPAR", p148)];
   [("RPAR", p149)];
   [("LPAR", p150); ("RPAR", p150)];
   [("LPAR", p151); ("RPAR", p151)];
   [("RPAR", Shift 320)];
   [("EFFECT", p152); ("LPAR", p152); ("RPAR", p152)];
   [("?", p153); ("NAME", p153); ("RPAR", p153)];
   [("EFFECT", p154); ("LPAR", p154); ("RPAR", p154)];
   [("RPAR", Shift 321)];
   [("LPAR", p155); ("RPAR", p155)];
   [("EFFECT", p156); ("LPAR", p156); ("RPAR", p156)];
   [("RPAR", Shift 322)];
   [("EFFECT", p157); ("LPAR", p157); ("RPAR", p157)];
   [("LPAR", Shift 254); ("NAME", Shift 255); ("NUMBER", Shift 259)];
   [("LPAR", Shift 254); ("NAME", Shift 255); ("NUMBER", Shift 259)];
   [("?", Shift 183); ("NAME", Shift 242); ("RPAR", Shift 326)];
   [("LPAR", p158); ("NAME", p158); ("NUMBER", p158)];
   [("LPAR", p159); ("NAME", p159); ("NUMBER", p159)];
   [("LPAR", p160); ("NAME", p160); ("NUMBER", p160)];
   [("LPAR", Shift 254); ("NAME", Shift 255); ("NUMBER", Shift 259)];
   [("RPAR", Shift 328)];
   [("RPAR", Shift 329)];
   [("$END", p161)];
   [("NAME", Shift 177); ("OBJECT", Shift 178)];
   [("?", p162); ("RPAR", p162)];
   [("EFFECT", p163); ("RPAR", p163)];
   [("LPAR", Shift 278)];
   [("LPAR", Shift 334); ("NAME", Shift 255)];
   [("LPAR", Shift 335)];
   [("LPAR", Shift 337); ("RPAR", Shift 340)];
   [("?", Shift 183); ("NAME", Shift 242)];
   [("RPAR", p164)];
   [("LPAR", Shift 138)];
   [("LPAR", p165); ("NAME", p165)];
   [("LPAR", p166); ("NAME", p166)];
   [("LPAR", Shift 342)];
   [("LPAR", p167); ("NAME", p167)];
   [("LPAR", p168); ("NAME", p168)];
   [("LPAR", p169); ("NAME", p169)];
   [("LPAR", Shift 345)];
   [("LPAR", Shift 138)];
   [("EFFECT", p170); ("LPAR", p170); ("RPAR", p170)];
   [("EFFECT", p171); ("LPAR", p171); ("RPAR", p171)];
   [("LPAR", Shift 254); ("NAME", Shift 255); ("NUMBER", Shift 259)];
   [("RPAR", Shift 349)];
   [("?", Shift 183); ("NAME", Shift 242); ("RPAR", Shift 350)];
   [("LPAR", p172); ("NAME", p172); ("NUMBER", p172); ("RPAR", p172)];
   [("LPAR", Shift 254); ("NAME", Shift 255); ("NUMBER", Shift 259)];
   [("EFFECT", p173); ("LPAR", p173); ("RPAR", p173)];
   [("LPAR", Shift 138)];
   [("NAME", p174); ("OBJECT", p174); ("RPAR", p174)];
   [("NAME", Shift 177); ("OBJECT", Shift 178); ("RPAR", Shift 353)];
   [("RPAR", p175)];
   [("LPAR", Shift 254); ("NAME", Shift 255); ("NUMBER", Shift 259)];
   [("NAME", Shift 295)];
   [("EQUAL_OP", Shift 310); ("NAME", Shift 200)];
   [("RPAR", Shift 356)];
   [("ASSIGN", Shift 316); ("DECREASE", Shift 317); ("EQUAL_OP", Shift 310); ("FORALL", Shift 319); ("INCREASE", Shift 314); ("NAME", Shift 200); ("NOT", Shift 308); ("ONEOF", Shift 315); ("SCALE_DOWN", Shift 318); ("SCALE_UP", Shift 313); ("WHEN", Shift 312)];
   [("LPAR", p176); ("RPAR", p176)];
   [("LPAR", Shift 337); ("RPAR", Shift 358)];
   [("LPAR", p177); ("RPAR", p177)];
   [("LPAR", Shift 360)];
   [("AND", Shift 309); ("ASSIGN", Shift 316); ("DECREASE", Shift 317); ("EQUAL_OP", Shift 310); ("FORALL", Shift 319); ("INCREASE", Shift 314); ("NAME", Shift 200); ("NOT", Shift 308); ("ONEOF", Shift 315); ("SCALE_DOWN", Shift 318); ("SCALE_UP", Shift 313); ("WHEN", Shift 312)];
   [("LPAR", p178); ("RPAR", p178)];
   [("LPAR", Shift 342); ("RPAR", Shift 363)];
   [("?", Shift 183); ("RPAR", p57)];
   [("RPAR", Shift 365)];
   [("LPAR", p179); ("NAME", p179); ("NUMBER", p179); ("RPAR", p179)];
   [("LPAR", Shift 254); ("NAME", Shift 255); ("NUMBER", Shift 259); ("RPAR", Shift 366)];
   [("LPAR", p180); ("NAME", p180); ("NUMBER", p180); ("RPAR", p180)];
   [("LPAR", p181); ("NAME", p181); ("NUMBER", p181); ("RPAR", p181)];
   [("RPAR", Shift 368)];
   [("RPAR", Shift 369)];
   [("?", p182); ("RPAR", p182)];
   [("NAME", p183); ("OBJECT", p183); ("RPAR", p183)];
   [("RPAR", Shift 370)];
   [("LPAR", p184); ("RPAR", p184)];
   [("LPAR", p185); ("RPAR", p185)];
   [("LPAR", p186); ("RPAR", p186)];
   [("RPAR", p187)];
   [("AND", Shift 371); ("ASSIGN", Shift 316); ("DECREASE", Shift 317); ("EQUAL_OP", Shift 310); ("INCREASE", Shift 314); ("NAME", Shift 200); ("NOT", Shift 308); ("SCALE_DOWN", Shift 318); ("SCALE_UP", Shift 313)];
   [("RPAR", Shift 372)];
   [("LPAR", p188); ("RPAR", p188)];
   [("LPAR", p189); ("RPAR", p189)];
   [("RPAR", Shift 373)];
   [("EFFECT", p190); ("LPAR", p190); ("RPAR", p190)];
   [("LPAR", p191); ("NAME", p191); ("NUMBER", p191); ("RPAR", p191)];
   [("LPAR", p192); ("NAME", p192); ("NUMBER", p192); ("RPAR", p192)];
   [("LPAR", p193); ("NAME", p193); ("NUMBER", p193); ("RPAR", p193)];
   [("EFFECT", p194); ("LPAR", p194); ("RPAR", p194)];
   [("LPAR", p195); ("RPAR", p195)];
   [("LPAR", Shift 376); ("RPAR", Shift 374)];
   [("LPAR", p196); ("RPAR", p196)];
   [("LPAR", Shift 342)];
   [("RPAR", p197)];
   [("LPAR", Shift 376); ("RPAR", Shift 379)];
   [("ASSIGN", Shift 316); ("DECREASE", Shift 317); ("EQUAL_OP", Shift 310); ("INCREASE", Shift 314); ("NAME", Shift 200); ("NOT", Shift 308); ("SCALE_DOWN", Shift 318); ("SCALE_UP", Shift 313)];
   [("LPAR", p198); ("RPAR", p198)];
   [("RPAR", Shift 381)];
   [("RPAR", p199)];
   [("LPAR", p200); ("RPAR", p200)];
   [("LPAR", p201); ("RPAR", p201)]]%positive.
Definition domain_gotos : list (list (nt * positive)) :=
  [[(Rule "domain", 3)];
   [];
   [];
   [(Rule "domain_def", 5)];
   [(e0, 13); (Rule "action_def", 16); (Rule "constants", 9); (Rule "derived_predicates", 11); (Rule "functions", 10); (Rule "predicates", 15); (Rule "requirements", 8); (Rule "structure_def", 14); (Rule "types", 12)];
   [];
   [];
   [(e0, 31); (Rule "action_def", 16); (Rule "constants", 26); (Rule "derived_predicates", 11); (Rule "functions", 30); (Rule "predicates", 29); (Rule "structure_def", 14); (Rule "types", 27)];
   [(e0, 37); (Rule "action_def", 16); (Rule "derived_predicates", 11); (Rule "functions", 36); (Rule "predicates", 33); (Rule "structure_def", 14)];
   [(e0, 38); (Rule "action_def", 16); (Rule "derived_predicates", 11); (Rule "structure_def", 14)];
   [];
   [(e0, 43); (Rule "action_def", 16); (Rule "constants", 42); (Rule "derived_predicates", 11); (Rule "functions", 41); (Rule "predicates", 46); (Rule "structure_def", 14)];
   [(Rule "action_def", 16); (Rule "derived_predicates", 11); (Rule "structure_def", 47)];
   [];
   [(e0, 52); (Rule "action_def", 16); (Rule "derived_predicates", 11); (Rule "functions", 49); (Rule "structure_def", 14)];
   [];
   [];
   [];
   [(e2, 55); (e1, 54); (Rule "typed_list_name", 57)];
   [(e3, 58); (e4, 59); (Rule "atomic_function_skeleton", 60); (Rule "f_typed_list_atomic_function_skeleton", 61)];
   [(e5, 71); (Rule "require_key", 68)];
   [(e6, 80); (Rule "atomic_formula_skeleton", 82)];
   [];
   [(e2, 55); (e1, 54); (Rule "typed_list_name", 84)];
   [(Rule "atomic_formula_skeleton", 85)];
   [(e0, 88); (Rule "action_def", 16); (Rule "derived_predicates", 11); (Rule "functions", 87); (Rule "predicates", 86); (Rule "structure_def", 14)];
   [(e0, 93); (Rule "action_def", 16); (Rule "constants", 91); (Rule "derived_predicates", 11); (Rule "functions", 92); (Rule "predicates", 90); (Rule "structure_def", 14)];
   [];
   [(e0, 96); (Rule "action_def", 16); (Rule "derived_predicates", 11); (Rule "functions", 95); (Rule "structure_def", 14)];
   [(e0, 98); (Rule "action_def", 16); (Rule "derived_predicates", 11); (Rule "structure_def", 14)];
   [(Rule "action_def", 16); (Rule "derived_predicates", 11); (Rule "structure_def", 47)];
   [];
   [(e0, 101); (Rule "action_def", 16); (Rule "derived_predicates", 11); (Rule "functions", 102); (Rule "structure_def", 14)];
   [];
   [];
   [(e0, 104); (Rule "action_def", 16); (Rule "derived_predicates", 11); (Rule "structure_def", 14)];
   [(Rule "action_def", 16); (Rule "derived_predicates", 11); (Rule "structure_def", 47)];
   [(Rule "action_def", 16); (Rule "derived_predicates", 11); (Rule "structure_def", 47)];
   [];
   [];
   [(e0, 108); (Rule "action_def", 16); (Rule "derived_predicates", 11); (Rule "structure_def", 14)];
   [(e0, 110); (Rule "action_def", 16); (Rule "derived_predicates", 11); (Rule "functions", 111); (Rule "predicates", 112); (Rule "structure_def", 14)];
   [(Rule "action_def", 16); (Rule "derived_predicates", 11); (Rule "structure_def", 47)];
   [];
   [];
   [(e0, 115); (Rule "action_def", 16); (Rule "derived_predicates", 11); (Rule "functions", 116); (Rule "structure_def", 14)];
   [];
   [];
   [(e0, 119); (Rule "action_def", 16); (Rule "derived_predicates", 11); (Rule "structure_def", 14)];
   [];
   [];
   [(Rule "action_def", 16); (Rule "derived_predicates", 11); (Rule "structure_def", 47)];
   [];
   [];
   [(e1, 124)];
   [];
   [];
   [(Rule "atomic_function_skeleton", 126)];
   [(e3, 128); (Rule "atomic_function_skeleton", 60)];
   [];
   [];
   [];
   [];
   [];
   [];
   [];
   [];
   [];
   [];
   [];
   [(Rule "require_key", 131)];
   [];
   [];
   [];
   [];
   [];
   [];
   [];
   [];
   [(Rule "atomic_formula_skeleton", 133)];
   [];
   [];
   [];
   [];
   [(Rule "atomic_formula_term", 139); (Rule "gd", 140)];
   [(e0, 141); (Rule "action_def", 16); (Rule "derived_predicates", 11); (Rule "functions", 142); (Rule "structure_def", 14)];
   [(e0, 144); (Rule "action_def", 16); (Rule "derived_predicates", 11); (Rule "structure_def", 14)];
   [(Rule "action_def", 16); (Rule "derived_predicates", 11); (Rule "structure_def", 47)];
   [];
   [(e0, 148); (Rule "action_def", 16); (Rule "derived_predicates", 11); (Rule "functions", 147); (Rule "structure_def", 14)];
   [(e0, 151); (Rule "action_def", 16); (Rule "derived_predicates", 11); (Rule "functions", 152); (Rule "predicates", 150); (Rule "structure_def", 14)];
   [(e0, 155); (Rule "action_def", 16); (Rule "derived_predicates", 11); (Rule "structure_def", 14)];
   [(Rule "action_def", 16); (Rule "derived_predicates", 11); (Rule "structure_def", 47)];
   [];
   [(e0, 157); (Rule "action_def", 16); (Rule "derived_predicates", 11); (Rule "structure_def", 14)];
   [(Rule "action_def", 16); (Rule "derived_predicates", 11); (Rule "structure_def", 47)];
   [];
   [(Rule "action_def", 16); (Rule "derived_predicates", 11); (Rule "structure_def", 47)];
   [];
   [];
   [(Rule "action_def", 16); (Rule "derived_predicates", 11); (Rule "structure_def", 47)];
   [(e0, 163); (Rule "action_def", 16); (Rule "derived_predicates", 11); (Rule "structure_def", 14)];
   [];
   [(Rule "action_def", 16); (Rule "derived_predicates", 11); (Rule "structure_def", 47)];
   [];
   [];
   [];
   [(Rule "action_def", 16); (Rule "derived_predicates", 11); (Rule "structure_def", 47)];
   [];
   [(Rule "action_def", 16); (Rule "derived_predicates", 11); (Rule "structure_def", 47)];
   [(e0, 167); (Rule "action_def", 16); (Rule "derived_predicates", 11); (Rule "structure_def", 14)];
   [(e0, 170); (Rule "action_def", 16); (Rule "derived_predicates", 11); (Rule "functions", 169); (Rule "structure_def", 14)];
   [];
   [];
   [(Rule "action_def", 16); (Rule "derived_predicates", 11); (Rule "structure_def", 47)];
   [(e0, 174); (Rule "action_def", 16); (Rule "derived_predicates", 11); (Rule "structure_def", 14)];
   [];
   [];
   [(Rule "action_def", 16); (Rule "derived_predicates", 11); (Rule "structure_def", 47)];
   [];
   [];
   [];
   [(Rule "primitive_type", 176)];
   [];
   [];
   [];
   [(Rule "f_type_def", 180)];
   [(Rule "atomic_function_skeleton", 126)];
   [];
   [(e7, 184); (e8, 185); (Rule "typed_list_variable", 187); (Rule "variable", 186)];
   [];
   [];
   [];
   [];
   [(e7, 184); (e8, 185); (Rule "typed_list_variable", 188); (Rule "variable", 186)];
   [(Rule "action_parameters", 190)];
   [];
   [(Rule "binary_comp", 203); (Rule "predicate", 193)];
   [];
   [];
   [(Rule "action_def", 16); (Rule "derived_predicates", 11); (Rule "structure_def", 47)];
   [(e0, 207); (Rule "action_def", 16); (Rule "derived_predicates", 11); (Rule "structure_def", 14)];
   [];
   [(Rule "action_def", 16); (Rule "derived_predicates", 11); (Rule "structure_def", 47)];
   [];
   [];
   [(e0, 211); (Rule "action_def", 16); (Rule "derived_predicates", 11); (Rule "structure_def", 14)];
   [(Rule "action_def", 16); (Rule "derived_predicates", 11); (Rule "structure_def", 47)];
   [];
   [(e0, 214); (Rule "action_def", 16); (Rule "derived_predicates", 11); (Rule "functions", 213); (Rule "structure_def", 14)];
   [(Rule "action_def", 16); (Rule "derived_predicates", 11); (Rule "structure_def", 47)];
   [(e0, 217); (Rule "action_def", 16); (Rule "derived_predicates", 11); (Rule "structure_def", 14)];
   [];
   [];
   [(Rule "action_def", 16); (Rule "derived_predicates", 11); (Rule "structure_def", 47)];
   [];
   [(Rule "action_def", 16); (Rule "derived_predicates", 11); (Rule "structure_def", 47)];
   [];
   [];
   [];
   [];
   [];
   [(Rule "action_def", 16); (Rule "derived_predicates", 11); (Rule "structure_def", 47)];
   [];
   [];
   [];
   [(Rule "action_def", 16); (Rule "derived_predicates", 11); (Rule "structure_def", 47)];
   [];
   [(e0, 223); (Rule "action_def", 16); (Rule "derived_predicates", 11); (Rule "structure_def", 14)];
   [(Rule "action_def", 16); (Rule "derived_predicates", 11); (Rule "structure_def", 47)];
   [];
   [];
   [];
   [(Rule "action_def", 16); (Rule "derived_predicates", 11); (Rule "structure_def", 47)];
   [];
   [];
   [];
   [];
   [(Rule "primitive_type", 227)];
   [];
   [];
   [(Rule "f_type_def", 228)];
   [];
   [(Rule "variable", 230)];
   [(e7, 232); (Rule "variable", 186)];
   [];
   [];
   [];
   [(e7, 184); (e8, 185); (Rule "typed_list_variable", 235); (Rule "variable", 186)];
   [(Rule "action_body_def", 236)];
   [];
   [(Rule "atomic_formula_term", 139); (Rule "gd", 240)];
   [(e9, 241); (Rule "constant", 243); (Rule "term", 244); (Rule "variable", 245)];
   [(Rule "constant", 243); (Rule "term", 247); (Rule "variable", 245)];
   [(e10, 249); (Rule "atomic_formula_term", 139); (Rule "gd", 248)];
   [(Rule "atomic_formula_term", 139); (Rule "gd", 251)];
   [(e10, 252); (Rule "atomic_formula_term", 139); (Rule "gd", 248)];
   [];
   [];
   [];
   [];
   [];
   [(Rule "f_exp", 257); (Rule "f_head", 258); (Rule "num_literal", 256)];
   [];
   [];
   [];
   [(Rule "action_def", 16); (Rule "derived_predicates", 11); (Rule "structure_def", 47)];
   [];
   [];
   [];
   [(Rule "action_def", 16); (Rule "derived_predicates", 11); (Rule "structure_def", 47)];
   [];
   [(e0, 263); (Rule "action_def", 16); (Rule "derived_predicates", 11); (Rule "structure_def", 14)];
   [(Rule "action_def", 16); (Rule "derived_predicates", 11); (Rule "structure_def", 47)];
   [];
   [];
   [(Rule "action_def", 16); (Rule "derived_predicates", 11); (Rule "structure_def", 47)];
   [];
   [];
   [];
   [];
   [];
   [(Rule "action_def", 16); (Rule "derived_predicates", 11); (Rule "structure_def", 47)];
   [];
   [];
   [];
   [];
   [];
   [];
   [];
   [(Rule "primitive_type", 269); (Rule "type_def", 270)];
   [(Rule "variable", 230)];
   [];
   [];
   [];
   [];
   [(Rule "atomic_formula_term", 139); (Rule "emptyor_pregd", 275); (Rule "gd", 276)];
   [(Rule "atomic_formula_term", 283); (Rule "c_effect", 279); (Rule "effect", 281); (Rule "emptyor_effect", 277); (Rule "num_effect", 280); (Rule "p_effect", 282)];
   [(e7, 184); (e8, 185); (Rule "typed_list_variable", 284); (Rule "variable", 186)];
   [];
   [(Rule "constant", 243); (Rule "term", 286); (Rule "variable", 245)];
   [];
   [];
   [];
   [];
   [];
   [(Rule "constant", 243); (Rule "term", 288); (Rule "variable", 245)];
   [];
   [(Rule "atomic_formula_term", 139); (Rule "gd", 289)];
   [];
   [(Rule "atomic_formula_term", 139); (Rule "gd", 291)];
   [(Rule "atomic_formula_term", 139); (Rule "gd", 289)];
   [];
   [(Rule "binary_op", 299); (Rule "multi_op", 293)];
   [];
   [];
   [(Rule "f_exp", 300); (Rule "f_head", 258); (Rule "num_literal", 256)];
   [];
   [];
   [(e7, 184); (e8, 185); (Rule "typed_list_variable", 301); (Rule "variable", 186)];
   [];
   [];
   [(Rule "action_def", 16); (Rule "derived_predicates", 11); (Rule "structure_def", 47)];
   [];
   [];
   [];
   [];
   [];
   [];
   [];
   [(Rule "primitive_type", 269); (Rule "type_def", 304)];
   [];
   [];
   [(Rule "binary_comp", 203); (Rule "predicate", 193)];
   [];
   [];
   [];
   [(Rule "assign_op", 307); (Rule "predicate", 193)];
   [];
   [];
   [];
   [];
   [];
   [];
   [];
   [];
   [];
   [];
   [];
   [];
   [];
   [];
   [(Rule "f_exp", 323); (Rule "f_head", 258); (Rule "num_literal", 256)];
   [(Rule "f_exp", 324); (Rule "f_head", 258); (Rule "num_literal", 256)];
   [(e9, 325); (Rule "constant", 243); (Rule "term", 244); (Rule "variable", 245)];
   [];
   [];
   [];
   [(Rule "f_exp", 327); (Rule "f_head", 258); (Rule "num_literal", 256)];
   [];
   [];
   [];
   [(e11, 331); (Rule "primitive_type", 330)];
   [];
   [];
   [(Rule "atomic_formula_term", 283); (Rule "c_effect", 279); (Rule "effect", 281); (Rule "emptyor_effect", 332); (Rule "num_effect", 280); (Rule "p_effect", 282)];
   [(Rule "f_head", 333)];
   [(Rule "atomic_formula_term", 336)];
   [(e12, 339); (Rule "atomic_formula_term", 283); (Rule "c_effect", 338); (Rule "num_effect", 280); (Rule "p_effect", 282)];
   [(Rule "constant", 243); (Rule "term", 247); (Rule "variable", 245)];
   [];
   [(Rule "atomic_formula_term", 139); (Rule "gd", 341)];
   [];
   [];
   [(e13, 344); (Rule "atomic_formula_term", 283); (Rule "c_effect", 279); (Rule "effect", 343); (Rule "num_effect", 280); (Rule "p_effect", 282)];
   [];
   [];
   [];
   [];
   [(Rule "atomic_formula_term", 139); (Rule "gd", 346)];
   [];
   [];
   [(e14, 348); (Rule "f_exp", 347); (Rule "f_head", 258); (Rule "num_literal", 256)];
   [];
   [(Rule "constant", 243); (Rule "term", 286); (Rule "variable", 245)];
   [];
   [(Rule "f_exp", 351); (Rule "f_head", 258); (Rule "num_literal", 256)];
   [];
   [(Rule "atomic_formula_term", 139); (Rule "gd", 352)];
   [];
   [(Rule "primitive_type", 354)];
   [];
   [(Rule "f_exp", 355); (Rule "f_head", 258); (Rule "num_literal", 256)];
   [];
   [(Rule "predicate", 193)];
   [];
   [(Rule "assign_op", 307); (Rule "predicate", 193)];
   [];
   [(Rule "atomic_formula_term", 283); (Rule "c_effect", 357); (Rule "num_effect", 280); (Rule "p_effect", 282)];
   [];
   [(Rule "atomic_formula_term", 283); (Rule "cond_effect", 361); (Rule "num_effect", 280); (Rule "p_effect", 359)];
   [(Rule "assign_op", 307); (Rule "predicate", 193)];
   [];
   [(Rule "atomic_formula_term", 283); (Rule "c_effect", 279); (Rule "effect", 362); (Rule "num_effect", 280); (Rule "p_effect", 282)];
   [(e7, 184); (e8, 185); (Rule "typed_list_variable", 364); (Rule "variable", 186)];
   [];
   [];
   [(Rule "f_exp", 367); (Rule "f_head", 258); (Rule "num_literal", 256)];
   [];
   [];
   [];
   [];
   [];
   [];
   [];
   [];
   [];
   [];
   [];
   [(Rule "assign_op", 307); (Rule "predicate", 193)];
   [];
   [];
   [];
   [];
   [];
   [];
   [];
   [];
   [];
   [];
   [(e15, 375); (Rule "atomic_formula_term", 283); (Rule "num_effect", 280); (Rule "p_effect", 377)];
   [];
   [(Rule "atomic_formula_term", 283); (Rule "c_effect", 279); (Rule "effect", 378); (Rule "num_effect", 280); (Rule "p_effect", 282)];
   [];
   [(Rule "atomic_formula_term", 283); (Rule "num_effect", 280); (Rule "p_effect", 380)];
   [(Rule "assign_op", 307); (Rule "predicate", 193)];
   [];
   [];
   [];
   [];
   []]%positive.
Definition domain_table : table :=
  mkTable (map_of 1 domain_actions) (map_of 1 domain_gotos) 3%positive.
Definition problem_actions : list (list (string * act)) :=
  [[("LPAR", Shift 2)];
   [("DEFINE", Shift 4)];
   [];
   [("LPAR", Shift 6)];
   [("LPAR", Shift 8)];
   [("PROBLEM", Shift 9)];
   [("LPAR", Shift 12)];
   [("DOMAIN_P", Shift 14)];
   [("NAME", Shift 15)];
   [("LPAR", Shift 17)];
   [("LPAR", Shift 20)];
   [("INIT", Shift 23); ("OBJECTS", Shift 22); ("REQUIREMENTS", Shift 21)];
   [("LPAR", Shift 25)];
   [("NAME", Shift 26)];
   [("RPAR", Shift 27)];
   [("LPAR", Shift 25)];
   [("INIT", Shift 23); ("OBJECTS", Shift 22)];
   [("LPAR", Shift 20)];
   [("LPAR", Shift 30); ("RPAR", Shift 32)];
   [("GOAL", Shift 33)];
   [("ACTION_COSTS", Shift 42); ("ADL", Shift 50); ("CONDITIONAL_EFFECTS", Shift 48); ("DERIVED_PREDICATES", Shift 44); ("DIS_PRECONDITION", Shift 45); ("EQUALITY", Shift 37); ("EXISTENTIAL_PRECONDITIONS", Shift 46); ("FLUENTS", Shift 49); ("NEG_PRECONDITION", Shift 43); ("NON_DETERMINISTIC", Shift 41); ("NUMERIC_FLUENTS", Shift 35); ("QUANTIFIED_PRECONDITIONS", Shift 39); ("STRIPS", Shift 47); ("TYPING", Shift 34); ("UNIVERSAL_PRECONDITIONS", Shift 36)];
   [("NAME", Shift 53); ("RPAR", p4)];
   [("LPAR", Shift 59); ("RPAR", Shift 60)];
   [("LPAR", Shift 20)];
   [("INIT", Shift 23)];
   [("RPAR", Shift 62)];
   [("LPAR", p202)];
   [("LPAR", Shift 20)];
   [("LPAR", Shift 30); ("RPAR", Shift 65)];
   [("METRIC", Shift 66)];
   [("RPAR", Shift 67)];
   [("$END", p203)];
   [("LPAR", Shift 69)];
   [("ACTION_COSTS", p28); ("ADL", p28); ("CONDITIONAL_EFFECTS", p28); ("DERIVED_PREDICATES", p28); ("DIS_PRECONDITION", p28); ("EQUALITY", p28); ("EXISTENTIAL_PRECONDITIONS", p28); ("FLUENTS", p28); ("NEG_PRECONDITION", p28); ("NON_DETERMINISTIC", p28); ("NUMERIC_FLUENTS", p28); ("QUANTIFIED_PRECONDITIONS", p28); ("RPAR", p28); ("STRIPS", p28); ("TYPING", p28); ("UNIVERSAL_PRECONDITIONS", p28)];
   [("ACTION_COSTS", p30); ("ADL", p30); ("CONDITIONAL_EFFECTS", p30); ("DERIVED_PREDICATES", p30); ("DIS_PRECONDITION", p30); ("EQUALITY", p30); ("EXISTENTIAL_PRECONDITIONS", p30); ("FLUENTS", p30); ("NEG_PRECONDITION", p30); ("NON_DETERMINISTIC", p30); ("NUMERIC_FLUENTS", p30); ("QUANTIFIED_PRECONDITIONS", p30); ("RPAR", p30); ("STRIPS", p30); ("TYPING", p30); ("UNIVERSAL_PRECONDITIONS", p30)];
   [("ACTION_COSTS", p31); ("ADL", p31); ("CONDITIONAL_EFFECTS", p31); ("DERIVED_PREDICATES", p31); ("DIS_PRECONDITION", p31); ("EQUALITY", p31); ("EXISTENTIAL_PRECONDITIONS", p31); ("FLUENTS", p31); ("NEG_PRECONDITION", p31); ("NON_DETERMINISTIC", p31); ("NUMERIC_FLUENTS", p31); ("QUANTIFIED_PRECONDITIONS", p31); ("RPAR", p31); ("STRIPS", p31); ("TYPING", p31); ("UNIVERSAL_PRECONDITIONS", p31)];
   [("ACTION_COSTS", p20); ("ADL", p20); ("CONDITIONAL_EFFECTS", p20); ("DERIVED_PREDICATES", p20); ("DIS_PRECONDITION", p20); ("EQUALITY", p20); ("EXISTENTIAL_PRECONDITIONS", p20); ("FLUENTS", p20); ("NEG_PRECONDITION", p20); ("NON_DETERMINISTIC", p20); ("NUMERIC_FLUENTS", p20); ("QUANTIFIED_PRECONDITIONS", p20); ("RPAR", p20); ("STRIPS", p20); ("TYPING", p20); ("UNIVERSAL_PRECONDITIONS", p20)];
   [("ACTION_COSTS", p23); ("ADL", p23); ("CONDITIONAL_EFFECTS", p23); ("DERIVED_PREDICATES", p23); ("DIS_PRECONDITION", p23); ("EQUALITY", p23); ("EXISTENTIAL_PRECONDITIONS", p23); ("FLUENTS", p23); ("NEG_PRECONDITION", p23); ("NON_DETERMINISTIC", p23); ("NUMERIC_FLUENTS", p23); ("QUANTIFIED_PRECONDITIONS", p23); ("RPAR", p23); ("STRIPS", p23); ("TYPING", p23); ("UNIVERSAL_PRECONDITIONS", p23)];
   [("ACTION_COSTS", p21); ("ADL", p21); ("CONDITIONAL_EFFECTS", p21); ("DERIVED_PREDICATES", p21); ("DIS_PRECONDITION", p21); ("EQUALITY", p21); ("EXISTENTIAL_PRECONDITIONS", p21); ("FLUENTS", p21); ("NEG_PRECONDITION", p21); ("NON_DETERMINISTIC", p21); ("NUMERIC_FLUENTS", p21); ("QUANTIFIED_PRECONDITIONS", p21); ("RPAR", p21); ("STRIPS", p21); ("TYPING", p21); ("UNIVERSAL_PRECONDITIONS", p21)];
   [("ACTION_COSTS", Shift 42); ("ADL", Shift 50); ("CONDITIONAL_EFFECTS", Shift 48); ("DERIVED_PREDICATES", Shift 44); ("DIS_PRECONDITION", Shift 45); ("EQUALITY", Shift 37); ("EXISTENTIAL_PRECONDITIONS", Shift 46); ("FLUENTS", Shift 49); ("NEG_PRECONDITION", Shift 43); ("NON_DETERMINISTIC", Shift 41); ("NUMERIC_FLUENTS", Shift 35); ("QUANTIFIED_PRECONDITIONS", Shift 39); ("RPAR", Shift 72); ("STRIPS", Shift 47); ("TYPING", Shift 34); ("UNIVERSAL_PRECONDITIONS", Shift 36)];
   [("ACTION_COSTS", p22); ("ADL", p22); ("CONDITIONAL_EFFECTS", p22); ("DERIVED_PREDICATES", p22); ("DIS_PRECONDITION", p22); ("EQUALITY", p22); ("EXISTENTIAL_PRECONDITIONS", p22); ("FLUENTS", p22); ("NEG_PRECONDITION", p22); ("NON_DETERMINISTIC", p22); ("NUMERIC_FLUENTS", p22); ("QUANTIFIED_PRECONDITIONS", p22); ("RPAR", p22); ("STRIPS", p22); ("TYPING", p22); ("UNIVERSAL_PRECONDITIONS", p22)];
   [("ACTION_COSTS", p32); ("ADL", p32); ("CONDITIONAL_EFFECTS", p32); ("DERIVED_PREDICATES", p32); ("DIS_PRECONDITION", p32); ("EQUALITY", p32); ("EXISTENTIAL_PRECONDITIONS", p32); ("FLUENTS", p32); ("NEG_PRECONDITION", p32); ("NON_DETERMINISTIC", p32); ("NUMERIC_FLUENTS", p32); ("QUANTIFIED_PRECONDITIONS", p32); ("RPAR", p32); ("STRIPS", p32); ("TYPING", p32); ("UNIVERSAL_PRECONDITIONS", p32)];
   [("ACTION_COSTS", p25); ("ADL", p25); ("CONDITIONAL_EFFECTS", p25); ("DERIVED_PREDICATES", p25); ("DIS_PRECONDITION", p25); ("EQUALITY", p25); ("EXISTENTIAL_PRECONDITIONS", p25); ("FLUENTS", p25); ("NEG_PRECONDITION", p25); ("NON_DETERMINISTIC", p25); ("NUMERIC_FLUENTS", p25); ("QUANTIFIED_PRECONDITIONS", p25); ("RPAR", p25); ("STRIPS", p25); ("TYPING", p25); ("UNIVERSAL_PRECONDITIONS", p25)];
   [("ACTION_COSTS", p26); ("ADL", p26); ("CONDITIONAL_EFFECTS", p26); ("DERIVED_PREDICATES", p26); ("DIS_PRECONDITION", p26); ("EQUALITY", p26); ("EXISTENTIAL_PRECONDITIONS", p26); ("FLUENTS", p26); ("NEG_PRECONDITION", p26); ("NON_DETERMINISTIC", p26); ("NUMERIC_FLUENTS", p26); ("QUANTIFIED_PRECONDITIONS", p26); ("RPAR", p26); ("STRIPS", p26); ("TYPING", p26); ("UNIVERSAL_PRECONDITIONS", p26)];
   [("ACTION_COSTS", p27); ("ADL", p27); ("CONDITIONAL_EFFECTS", p27); ("DERIVED_PREDICATES", p27); ("DIS_PRECONDITION", p27); ("EQUALITY", p27); ("EXISTENTIAL_PRECONDITIONS", p27); ("FLUENTS", p27); ("NEG_PRECONDITION", p27); ("NON_DETERMINISTIC", p27); ("NUMERIC_FLUENTS", p27); ("QUANTIFIED_PRECONDITIONS", p27); ("RPAR", p27); ("STRIPS", p27); ("TYPING", p27); ("UNIVERSAL_PRECONDITIONS", p27)];
   [("ACTION_COSTS", p18); ("ADL", p18); ("CONDITIONAL_EFFECTS", p18); ("DERIVED_PREDICATES", p18); ("DIS_PRECONDITION", p18); ("EQUALITY", p18); ("EXISTENTIAL_PRECONDITIONS", p18); ("FLUENTS", p18); ("NEG_PRECONDITION", p18); ("NON_DETERMINISTIC", p18); ("NUMERIC_FLUENTS", p18); ("QUANTIFIED_PRECONDITIONS", p18); ("RPAR", p18); ("STRIPS", p18); ("TYPING", p18); ("UNIVERSAL_PRECONDITIONS", p18)];
   [("ACTION_COSTS", p19); ("ADL", p19); ("CONDITIONAL_EFFECTS", p19); ("DERIVED_PREDICATES", p19); ("DIS_PRECONDITION", p19); ("EQUALITY", p19); ("EXISTENTIAL_PRECONDITIONS", p19); ("FLUENTS", p19); ("NEG_PRECONDITION", p19); ("NON_DETERMINISTIC", p19); ("NUMERIC_FLUENTS", p19); ("QUANTIFIED_PRECONDITIONS", p19); ("RPAR", p19); ("STRIPS", p19); ("TYPING", p19); ("UNIVERSAL_PRECONDITIONS", p19)];
   [("ACTION_COSTS", p29); ("ADL", p29); ("CONDITIONAL_EFFECTS", p29); ("DERIVED_PREDICATES", p29); ("DIS_PRECONDITION", p29); ("EQUALITY", p29); ("EXISTENTIAL_PRECONDITIONS", p29); ("FLUENTS", p29); ("NEG_PRECONDITION", p29); ("NON_DETERMINISTIC", p29); ("NUMERIC_FLUENTS", p29); ("QUANTIFIED_PRECONDITIONS", p29); ("RPAR", p29); ("STRIPS", p29); ("TYPING", p29); ("UNIVERSAL_PRECONDITIONS", p29)];
   [("ACTION_COSTS", p33); ("ADL", p33); ("CONDITIONAL_EFFECTS", p33); ("DERIVED_PREDICATES", p33); ("DIS_PRECONDITION", p33); ("EQUALITY", p33); ("EXISTENTIAL_PRECONDITIONS", p33); ("FLUENTS", p33); ("NEG_PRECONDITION", p33); ("NON_DETERMINISTIC", p33); ("NUMERIC_FLUENTS", p33); ("QUANTIFIED_PRECONDITIONS", p33); ("RPAR", p33); ("STRIPS", p33); ("TYPING", p33); ("UNIVERSAL_PRECONDITIONS", p33)];
   [("ACTION_COSTS", p24); ("ADL", p24); ("CONDITIONAL_EFFECTS", p24); ("DERIVED_PREDICATES", p24); ("DIS_PRECONDITION", p24); ("EQUALITY", p24); ("EXISTENTIAL_PRECONDITIONS", p24); ("FLUENTS", p24); ("NEG_PRECONDITION", p24); ("NON_DETERMINISTIC", p24); ("NUMERIC_FLUENTS", p24); ("QUANTIFIED_PRECONDITIONS", p24); ("RPAR", p24); ("STRIPS", p24); ("TYPING", p24); ("UNIVERSAL_PRECONDITIONS", p24)];
   [("NAME", Shift 53); ("RPAR", p13)];
   [("NAME", Shift 74); ("RPAR", p12); ("TYPE_SEP", Shift 75)];
   [("NAME", p14); ("RPAR", p14); ("TYPE_SEP", p14)];
   [("RPAR", Shift 76)];
   [("LPAR", p204); ("RPAR", p204)];
   [("LPAR", p205); ("RPAR", p205)];
   [("LPAR", p206); ("RPAR", p206)];
   [("LPAR", Shift 59); ("RPAR", Shift 78)];
   [("EQUAL_OP", Shift 82); ("NAME", Shift 81); ("NOT", Shift 79)];
   [("LPAR", p207)];
   [("LPAR", Shift 30); ("RPAR", Shift 83)];
   [("LPAR", p208)];
   [("LPAR", Shift 30); ("RPAR", Shift 86)];
   [("RPAR", Shift 87)];
   [("$END", p209)];
   [("MAXIMIZE", Shift 90); ("MINIMIZE", Shift 88)];
   [("$END", p210)];
   [("LPAR", p63); ("RPAR", p63)];
   [("AND", Shift 94); ("EQUAL_OP", Shift 99); ("EXISTS", Shift 97); ("FORALL", Shift 91); ("GREATER_EQUAL_OP", Shift 103); ("GREATER_OP", Shift 102); ("IMPLY", Shift 98); ("LESSER_EQUAL_OP", Shift 101); ("LESSER_OP", Shift 100); ("NAME", Shift 81); ("NOT", Shift 92); ("OR", Shift 95)];
   [("RPAR", Shift 104)];
   [("ACTION_COSTS", p58); ("ADL", p58); ("CONDITIONAL_EFFECTS", p58); ("DERIVED_PREDICATES", p58); ("DIS_PRECONDITION", p58); ("EQUALITY", p58); ("EXISTENTIAL_PRECONDITIONS", p58); ("FLUENTS", p58); ("NEG_PRECONDITION", p58); ("NON_DETERMINISTIC", p58); ("NUMERIC_FLUENTS", p58); ("QUANTIFIED_PRECONDITIONS", p58); ("RPAR", p58); ("STRIPS", p58); ("TYPING", p58); ("UNIVERSAL_PRECONDITIONS", p58)];
   [("LPAR", p59)];
   [("NAME", Shift 74); ("RPAR", p52); ("TYPE_SEP", Shift 105)];
   [("NAME", p51); ("RPAR", p51); ("TYPE_SEP", p51)];
   [("NAME", Shift 107); ("OBJECT", Shift 108)];
   [("LPAR", p211)];
   [("LPAR", p212); ("RPAR", p212)];
   [("LPAR", p213)];
   [("LPAR", Shift 109)];
   [("NAME", Shift 53); ("RPAR", Shift 112)];
   [("?", p96); ("NAME", p96); ("RPAR", p96)];
   [("LPAR", Shift 114); ("NAME", Shift 115)];
   [("$END", p214)];
   [("RPAR", Shift 116)];
   [("RPAR", Shift 117)];
   [("$END", p215)];
   [("$END", p216)];
   [("LPAR", p217); ("NAME", p217); ("NUMBER", p217)];
   [("LPAR", Shift 118); ("NAME", Shift 115); ("NUMBER", Shift 121)];
   [("LPAR", p218); ("NAME", p218); ("NUMBER", p218)];
   [("LPAR", Shift 122)];
   [("LPAR", Shift 69)];
   [("LPAR", Shift 125); ("NAME", Shift 124); ("NUMBER", Shift 126)];
   [("LPAR", Shift 69); ("RPAR", Shift 132)];
   [("LPAR", Shift 69); ("RPAR", Shift 133)];
   [("?", Shift 139); ("NAME", Shift 135); ("RPAR", Shift 141)];
   [("LPAR", Shift 142)];
   [("LPAR", Shift 69)];
   [("?", Shift 139); ("LPAR", p93); ("NAME", Shift 135); ("NUMBER", p93)];
   [("LPAR", p94); ("NAME", p94); ("NUMBER", p94)];
   [("LPAR", p95); ("NAME", p95); ("NUMBER", p95)];
   [("LPAR", p97); ("NAME", p97); ("NUMBER", p97)];
   [("LPAR", p98); ("NAME", p98); ("NUMBER", p98)];
   [("LPAR", p219); ("RPAR", p219)];
   [("NAME", Shift 107); ("OBJECT", Shift 108)];
   [("NAME", p84); ("RPAR", p84)];
   [("?", p85); ("NAME", p85); ("OBJECT", p85); ("RPAR", p85)];
   [("?", p86); ("NAME", p86); ("OBJECT", p86); ("RPAR", p86)];
   [("NAME", Shift 81)];
   [("RPAR", Shift 146)];
   [("NAME", Shift 74); ("RPAR", Shift 147)];
   [("LPAR", p220); ("RPAR", p220)];
   [("NUMBER", Shift 126)];
   [("NAME", Shift 149)];
   [("LPAR", p221); ("NAME", p221); ("NUMBER", p221); ("RPAR", p221)];
   [("$END", p222)];
   [("$END", p223)];
   [("DIVIDE", Shift 152); ("MINUS", Shift 151); ("NAME", Shift 149); ("PLUS", Shift 154); ("TIMES", Shift 153)];
   [("RPAR", Shift 156)];
   [("LPAR", p224); ("NAME", p224); ("NUMBER", p224); ("RPAR", p224)];
   [("LPAR", p225); ("NAME", p225); ("NUMBER", p225); ("RPAR", p225)];
   [("?", Shift 139); ("RPAR", p57)];
   [("RPAR", Shift 161)];
   [("LPAR", p130); ("NAME", p130); ("NUMBER", p130); ("RPAR", p130)];
   [("DIVIDE", Shift 152); ("MINUS", Shift 163); ("NAME", Shift 164); ("PLUS", Shift 154); ("TIMES", Shift 153)];
   [("LPAR", p133); ("NAME", p133); ("NUMBER", p133); ("RPAR", p133)];
   [("LPAR", p132); ("NAME", p132); ("NUMBER", p132); ("RPAR", p132)];
   [("LPAR", Shift 125); ("NAME", Shift 124); ("NUMBER", Shift 126)];
   [("LPAR", p131); ("NAME", p131); ("NUMBER", p131); ("RPAR", p131)];
   [("LPAR", p127); ("RPAR", p127)];
   [("LPAR", Shift 69); ("RPAR", Shift 167)];
   [("LPAR", p128); ("RPAR", p128)];
   [("LPAR", p129); ("RPAR", p129)];
   [("LPAR", Shift 69); ("RPAR", Shift 169)];
   [("?", p122); ("NAME", p122); ("RPAR", p122)];
   [("?", Shift 139); ("NAME", Shift 135); ("RPAR", Shift 170)];
   [("?", p123); ("NAME", p123); ("RPAR", p123)];
   [("?", p125); ("NAME", p125); ("RPAR", p125)];
   [("NAME", Shift 172)];
   [("?", p124); ("NAME", p124); ("RPAR", p124)];
   [("LPAR", p126); ("RPAR", p126)];
   [("?", Shift 139); ("RPAR", p57)];
   [("LPAR", Shift 69)];
   [("?", Shift 139); ("NAME", Shift 135)];
   [("NAME", p115); ("RPAR", p115)];
   [("LPAR", p226); ("RPAR", p226)];
   [("LPAR", p227); ("RPAR", p227)];
   [("RPAR", Shift 176)];
   [("NAME", Shift 53); ("RPAR", Shift 178)];
   [("LPAR", Shift 118); ("NAME", Shift 115); ("NUMBER", Shift 121)];
   [("LPAR", Shift 118); ("NAME", Shift 115); ("NUMBER", Shift 121)];
   [("LPAR", p158); ("NAME", p158); ("NUMBER", p158)];
   [("LPAR", p159); ("NAME", p159); ("NUMBER", p159)];
   [("LPAR", p160); ("NAME", p160); ("NUMBER", p160)];
   [("LPAR", Shift 118); ("NAME", Shift 115); ("NUMBER", Shift 121)];
   [("RPAR", p228)];
   [("?", Shift 139); ("RPAR", p90)];
   [("?", Shift 139); ("RPAR", p89); ("TYPE_SEP", Shift 183)];
   [("RPAR", Shift 185)];
   [("?", p91); ("RPAR", p91); ("TYPE_SEP", p91)];
   [("LPAR", p152); ("RPAR", p152)];
   [("LPAR", Shift 125); ("NAME", Shift 124); ("NUMBER", Shift 126)];
   [("LPAR", Shift 125); ("NAME", Shift 124); ("NUMBER", Shift 126)];
   [("?", Shift 139); ("NAME", Shift 135); ("RPAR", Shift 188)];
   [("LPAR", Shift 125); ("NAME", Shift 124); ("NUMBER", Shift 126)];
   [("RPAR", Shift 191)];
   [("LPAR", p156); ("RPAR", p156)];
   [("LPAR", p155); ("RPAR", p155)];
   [("LPAR", p157); ("RPAR", p157)];
   [("LPAR", p154); ("RPAR", p154)];
   [("?", p153); ("NAME", p153); ("RPAR", p153)];
   [("?", p117); ("NAME", p117); ("RPAR", p117); ("TYPE_SEP", p117)];
   [("RPAR", Shift 192)];
   [("RPAR", Shift 193)];
   [("RPAR", Shift 194)];
   [("LPAR", p229); ("RPAR", p229)];
   [("NAME", Shift 74); ("RPAR", Shift 195)];
   [("LPAR", p230); ("NAME", p230); ("NUMBER", p230); ("RPAR", p230)];
   [("LPAR", Shift 118); ("NAME", Shift 115); ("NUMBER", Shift 121)];
   [("RPAR", Shift 198)];
   [("LPAR", Shift 118); ("NAME", Shift 115); ("NUMBER", Shift 121)];
   [("?", Shift 139); ("RPAR", p119); ("TYPE_SEP", Shift 200)];
   [("LPAR", Shift 201); ("NAME", Shift 107); ("OBJECT", Shift 108)];
   [("?", p118); ("RPAR", p118); ("TYPE_SEP", p118)];
   [("LPAR", Shift 69)];
   [("LPAR", Shift 125); ("NAME", Shift 124); ("NUMBER", Shift 126)];
   [("RPAR", Shift 207)];
   [("LPAR", p172); ("NAME", p172); ("NUMBER", p172); ("RPAR", p172)];
   [("?", Shift 139); ("NAME", Shift 135); ("RPAR", Shift 208)];
   [("LPAR", Shift 125); ("NAME", Shift 124); ("NUMBER", Shift 126)];
   [("LPAR", p173); ("RPAR", p173)];
   [("LPAR", Shift 69)];
   [("LPAR", p171); ("RPAR", p171)];
   [("LPAR", p170); ("RPAR", p170)];
   [("LPAR", p231); ("NAME", p231); ("NUMBER", p231); ("RPAR", p231)];
   [("LPAR", p232); ("NAME", p232); ("NUMBER", p232); ("RPAR", p232)];
   [("LPAR", Shift 118); ("NAME", Shift 115); ("NUMBER", Shift 121); ("RPAR", Shift 212)];
   [("LPAR", p233); ("NAME", p233); ("NUMBER", p233); ("RPAR", p233)];
   [("RPAR", Shift 213)];
   [("LPAR", Shift 201); ("NAME", Shift 107); ("OBJECT", Shift 108)];
   [("EITHER", Shift 215)];
   [("?", p140); ("RPAR", p140)];
   [("?", p141); ("RPAR", p141)];
   [("RPAR", Shift 216)];
   [("LPAR", p179); ("NAME", p179); ("NUMBER", p179); ("RPAR", p179)];
   [("LPAR", Shift 125); ("NAME", Shift 124); ("NUMBER", Shift 126); ("RPAR", Shift 218)];
   [("LPAR", p180); ("NAME", p180); ("NUMBER", p180); ("RPAR", p180)];
   [("LPAR", p181); ("NAME", p181); ("NUMBER", p181); ("RPAR", p181)];
   [("RPAR", Shift 219)];
   [("RPAR", Shift 220)];
   [("LPAR", p234); ("NAME", p234); ("NUMBER", p234); ("RPAR", p234)];
   [("LPAR", p235); ("NAME", p235); ("NUMBER", p235); ("RPAR", p235)];
   [("LPAR", p236); ("NAME", p236); ("NUMBER", p236); ("RPAR", p236)];
   [("?", p162); ("RPAR", p162)];
   [("NAME", Shift 107); ("OBJECT", Shift 108)];
   [("LPAR", p190); ("RPAR", p190)];
   [("LPAR", p192); ("NAME", p192); ("NUMBER", p192); ("RPAR", p192)];
   [("LPAR", p191); ("NAME", p191); ("NUMBER", p191); ("RPAR", p191)];
   [("LPAR", p193); ("NAME", p193); ("NUMBER", p193); ("RPAR", p193)];
   [("LPAR", p194); ("RPAR", p194)];
   [("NAME", p174); ("OBJECT", p174); ("RPAR", p174)];
   [("NAME", Shift 107); ("OBJECT", Shift 108); ("RPAR", Shift 224)];
   [("NAME", p183); ("OBJECT", p183); ("RPAR", p183)];
   [("?", p182); ("RPAR", p182)]]%positive.
Definition problem_gotos : list (list (nt * positive)) :=
  [[(Rule "problem", 3)];
   [];
   [];
   [(Rule "problem_def", 5)];
   [(Rule "problem_domain", 7)];
   [];
   [(Rule "init", 11); (Rule "objects", 13); (Rule "requirements", 10)];
   [];
   [];
   [(Rule "init", 18); (Rule "objects", 16)];
   [(Rule "goal", 19)];
   [];
   [(Rule "init", 24)];
   [];
   [];
   [(Rule "init", 28)];
   [];
   [(Rule "goal", 29)];
   [(Rule "metric_spec", 31)];
   [];
   [(e5, 40); (Rule "require_key", 38)];
   [(e2, 51); (e1, 52); (Rule "typed_list_name", 54)];
   [(e16, 58); (Rule "atomic_formula_name", 57); (Rule "init_el", 55); (Rule "literal_name", 56)];
   [(Rule "goal", 61)];
   [];
   [];
   [];
   [(Rule "goal", 63)];
   [(Rule "metric_spec", 64)];
   [];
   [];
   [];
   [(Rule "atomic_formula_term", 68); (Rule "gd", 70)];
   [];
   [];
   [];
   [];
   [];
   [];
   [(Rule "require_key", 71)];
   [];
   [];
   [];
   [];
   [];
   [];
   [];
   [];
   [];
   [];
   [(e1, 73)];
   [];
   [];
   [];
   [];
   [];
   [];
   [(Rule "atomic_formula_name", 57); (Rule "init_el", 77); (Rule "literal_name", 56)];
   [(Rule "predicate", 80)];
   [];
   [(Rule "metric_spec", 84)];
   [];
   [(Rule "metric_spec", 85)];
   [];
   [];
   [(Rule "optimization", 89)];
   [];
   [];
   [(Rule "binary_comp", 93); (Rule "predicate", 96)];
   [];
   [];
   [];
   [];
   [];
   [(Rule "primitive_type", 106)];
   [];
   [];
   [];
   [(Rule "atomic_formula_name", 110)];
   [(e1, 111)];
   [];
   [(Rule "basic_function_term", 113)];
   [];
   [];
   [];
   [];
   [];
   [];
   [(Rule "basic_function_term", 120); (Rule "metric_f_exp", 119)];
   [];
   [];
   [(Rule "atomic_formula_term", 68); (Rule "gd", 123)];
   [(Rule "f_exp", 128); (Rule "f_head", 127); (Rule "num_literal", 129)];
   [(e10, 131); (Rule "atomic_formula_term", 68); (Rule "gd", 130)];
   [(e10, 134); (Rule "atomic_formula_term", 68); (Rule "gd", 130)];
   [(e9, 136); (Rule "constant", 137); (Rule "term", 140); (Rule "variable", 138)];
   [];
   [(Rule "atomic_formula_term", 68); (Rule "gd", 143)];
   [(Rule "constant", 137); (Rule "term", 144); (Rule "variable", 138)];
   [];
   [];
   [];
   [];
   [];
   [(Rule "primitive_type", 145)];
   [];
   [];
   [];
   [(Rule "predicate", 80)];
   [];
   [];
   [];
   [(Rule "num_literal", 148)];
   [];
   [];
   [];
   [];
   [(Rule "binary_op", 155); (Rule "multi_op", 150)];
   [];
   [];
   [];
   [(e7, 158); (e8, 157); (Rule "typed_list_variable", 159); (Rule "variable", 160)];
   [];
   [];
   [(Rule "binary_op", 165); (Rule "multi_op", 162)];
   [];
   [];
   [(Rule "f_exp", 166); (Rule "f_head", 127); (Rule "num_literal", 129)];
   [];
   [];
   [(Rule "atomic_formula_term", 68); (Rule "gd", 168)];
   [];
   [];
   [(Rule "atomic_formula_term", 68); (Rule "gd", 168)];
   [];
   [(Rule "constant", 137); (Rule "term", 171); (Rule "variable", 138)];
   [];
   [];
   [];
   [];
   [];
   [(e7, 158); (e8, 157); (Rule "typed_list_variable", 173); (Rule "variable", 160)];
   [(Rule "atomic_formula_term", 68); (Rule "gd", 174)];
   [(Rule "constant", 137); (Rule "term", 175); (Rule "variable", 138)];
   [];
   [];
   [];
   [];
   [(e1, 177)];
   [(Rule "basic_function_term", 120); (Rule "metric_f_exp", 179)];
   [(Rule "basic_function_term", 120); (Rule "metric_f_exp", 180)];
   [];
   [];
   [];
   [(Rule "basic_function_term", 120); (Rule "metric_f_exp", 181)];
   [];
   [(e7, 182); (Rule "variable", 160)];
   [(Rule "variable", 184)];
   [];
   [];
   [];
   [(Rule "f_exp", 186); (Rule "f_head", 127); (Rule "num_literal", 129)];
   [(Rule "f_exp", 187); (Rule "f_head", 127); (Rule "num_literal", 129)];
   [(e9, 189); (Rule "constant", 137); (Rule "term", 140); (Rule "variable", 138)];
   [(Rule "f_exp", 190); (Rule "f_head", 127); (Rule "num_literal", 129)];
   [];
   [];
   [];
   [];
   [];
   [];
   [];
   [];
   [];
   [];
   [];
   [];
   [];
   [(e17, 197); (Rule "basic_function_term", 120); (Rule "metric_f_exp", 196)];
   [];
   [(Rule "basic_function_term", 120); (Rule "metric_f_exp", 199)];
   [(Rule "variable", 184)];
   [(Rule "primitive_type", 202); (Rule "type_def", 203)];
   [];
   [(Rule "atomic_formula_term", 68); (Rule "gd", 204)];
   [(e14, 206); (Rule "f_exp", 205); (Rule "f_head", 127); (Rule "num_literal", 129)];
   [];
   [];
   [(Rule "constant", 137); (Rule "term", 171); (Rule "variable", 138)];
   [(Rule "f_exp", 209); (Rule "f_head", 127); (Rule "num_literal", 129)];
   [];
   [(Rule "atomic_formula_term", 68); (Rule "gd", 210)];
   [];
   [];
   [];
   [];
   [(Rule "basic_function_term", 120); (Rule "metric_f_exp", 211)];
   [];
   [];
   [(Rule "primitive_type", 202); (Rule "type_def", 214)];
   [];
   [];
   [];
   [];
   [];
   [(Rule "f_exp", 217); (Rule "f_head", 127); (Rule "num_literal", 129)];
   [];
   [];
   [];
   [];
   [];
   [];
   [];
   [];
   [(e11, 222); (Rule "primitive_type", 221)];
   [];
   [];
   [];
   [];
   [];
   [];
   [(Rule "primitive_type", 223)];
   [];
   []]%positive.
Definition problem_table : table :=
  mkTable (map_of 1 problem_actions) (map_of 1 problem_gotos) 3%positive.
Definition plan_actions : list (list (string * act)) :=
  [[("$END", p237); ("LPAR", Shift 5)];
   [("$END", p238); ("LPAR", Shift 5)];
   [];
   [("$END", p239); ("LPAR", p239)];
   [("NAME", Shift 8)];
   [("$END", p240); ("LPAR", p240)];
   [("NAME", Shift 11); ("RPAR", Shift 10)];
   [("NAME", p96); ("RPAR", p96)];
   [("NAME", Shift 13); ("RPAR", Shift 12)];
   [("$END", p241); ("LPAR", p241)];
   [("NAME", p14); ("RPAR", p14)];
   [("$END", p242); ("LPAR", p242)];
   [("NAME", p51); ("RPAR", p51)]]%positive.
Definition plan_gotos : list (list (nt * positive)) :=
  [[(e18, 2); (Rule "ground_action", 4); (Rule "plan", 3)];
   [(Rule "ground_action", 6)];
   [];
   [];
   [(Rule "predicate", 7)];
   [];
   [(e1, 9)];
   [];
   [];
   [];
   [];
   [];
   []]%positive.
Definition plan_table : table :=
  mkTable (map_of 1 plan_actions) (map_of 1 plan_gotos) 3%positive.
