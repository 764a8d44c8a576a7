ROWS = {
"C02": ("proved", ["C02_terms", "C02_formulas", "C02_derived", "C02_metrics", "C02_actions", "C02_domains", "C02_domains_reachable", "C02_problems", "C02_plans"], "Domains: the types and functions dicts have no repeated key, which C02_domains_reachable shows for constructed domains."),
"C03": ("proved", ["C03_terms", "C03_formulas", "C03_actions", "C03_derived", "C03_metrics"], "For every choice of primitive hash functions. Formulas are those obtained through the constructors (Built.v)."),
"C05": ("proved", ["C05_and", "C05_or", "C05_and_any", "C05_or_any"], ""),
"C06": ("proved", ["C06_normal_form", "C06_idempotent", "C06_instantiate"], ""),
"C08": ("proved", ["C08_invert", "C08_and", "C08_or", "C08_rshift"], ""),
"C15": ("proved", ["C15_predicate", "C15_equality", "C15_rejected"], ""),
"C21": ("proved", ["C21_exact", "C21_monotone", "C21_idempotent"], ""),
"C41": ("proved", ["C41_variable", "C41_tags", "C41_constant", "C41_type_tag"], ""),
"C09": ("proved", ["C09_terminates", "C09_none_iff_acyclic"], ""),
"C10": ("proved", ["C10_path_witnesses_cycle"], "The path may have a lead-in before the cycle, as the statement allows."),
"C11": ("partial", ["C11_refuted", "C11_partial", "C11_domain_partial", "C11_error"], "False of the code under :adl alone, which implies :typing. Exact criterion proved with :typing itself declared."),
"C12": ("proved", ["C12_formulas", "C12_actions"], "Actions with a precondition and an effect; see C14 for the others."),
"C13": ("partial", ["C13_functions_refuted", "C13_derived_refuted", "C13_partial", "C13_domain_accepted_iff"], "False of the code for functions and for conditions of derived predicates; proved for everything else, with the exact acceptance criterion of Domain."),
"C45": ("proved", ["C45_functions", "C45_accepted"], ""),
"C04": ("proved", ["C04_hash_is_current", "C04_hashing_changes_no_attribute"], ""),
"C24": ("proved", ["C24_variables", "C24_names", "C24_errors", "C24_grammar"], ""),
"C27": ("partial", ["C27_partial", "C27_rule_partial", "C27_refuted"], "Proved for every parsed text whose untyped head variables are not named like an action parameter; without that condition the claim is false of the code (stale parameters leak into derived conditions): C27_refuted."),
"C28": ("partial", ["C28_loop", "C28_partial", "C28_refuted"], "False as stated: the loop never advances past the direct supertype and hangs (C28_refuted). Proved: a successful check is right, and the exact condition under which it succeeds; C28_loop shows the model's verdict is that of the while loop."),
"C36": ("proved", ["C36_insert", "C36_replace", "C36_final_comment"], "For every text and every cut position outside tokens; any parser state for domains. Relies on the lexer model (characters to tokens)."),
"C42": ("proved", ["C42_words", "C42_tokens", "C42_domain", "C42_problem"], "Words for every string; tokens for every string without a semicolon (printed bodies contain none when names are legal)."),
"C35": ("partial", ["C35_domain_partial", "C35_missing_partial", "C35_condition_partial", "C35_effect_partial", "C35_goals", "C35_refuted"], "Domains: proved at the level of texts, for types with supertypes, preconditions, effects and derived predicates, with the requirement the error names. Refuted for goals: a problem's own requirements are never consulted, every goal using one of these features is rejected."),
"C40": ("partial", ["C40_parameters", "C40_one_to_one_partial", "C40_occurrences", "C40_refuted"], "For every accepted domain text: actions and written actions correspond, parameters are the distinct written variables in order of first occurrence with the written types (C40_parameters), exactly the written list when no variable is repeated (C40_one_to_one_partial), and variables of the body named like a parameter are that parameter (C40_occurrences). A variable written twice is kept once (C40_refuted)."),
"C38": ("partial", ["C38_literal", "C38_kind", "C38_actions_partial", "C38_problem_partial", "C38_metric_raw", "C38_refuted"], "C38_literal: every decimal numeral (positional value defined in Spec_Numbers.v) is one token and is parsed to that value, and conversely. C38_kind: numerals without a point become ints, numerals with a point floats. C38_actions_partial, C38_problem_partial: for every accepted text, the numbers in preconditions, effects, initial state and goal are by value exactly the numbers written. False for metrics: C38_metric_raw shows that no number of any parsed metric has a numeric value (the raw text is kept), C38_refuted gives a text. Floats are modelled as exact decimals: binary rounding is not modelled."),
"C30": ("proved", ["C30_roundtrip", "C30_exact"], "All plans of any length whose action names are identifiers and whose constants have legal names; equality is Plan.__eq__ (names only), and C30_exact gives the parsed plan itself."),
"C25": ("proved", ["C25_roundtrip", "C25_sections", "C25_empty"], "For :constants and :objects sections; every iteration order (the set is an arbitrary list without repeated names); the parsed dictionary is a permutation of the constants."),
"C26": ("proved", ["C26_lines", "C26_domain"], "Every type other than the name object itself (which the formatter omits when it is a key) is listed exactly once, under its parent, after a line that lists the parent; C26_domain: str() of any constructed domain does not raise."),
"C43": ("partial", ["C43_variables", "C43_parameters_partial", "C43_quantifier_partial", "C43_predicate_partial", "C43_function_partial", "C43_refuted"], "Characterised exactly, for every list of makeable variables and each of the four printers: the text reads back as the same variables iff no variable has several types (any number for predicates), no untyped variable precedes a typed one and repeated variables agree. The unconditional property is false of the code (C43_refuted)."),
"C32": ("partial", ["C32_problems_partial", "C32_with_domain_partial", "C32_objects", "C32_domain_refuted", "C32_refuted"], "Proved for every constructed problem that PDDL text can express (Spec_Problem.v): without a domain object the problem read back is equal; with one, assigning it to the problem read back succeeds and makes them equal; object types survive. The unconditional property is false of the code: a parsed problem never equals one with a domain object (C32_domain_refuted), disjunctive goals, negative initial values and metric numbers do not survive (C32_refuted)."),
"C33": ("partial", ["C33_domains_partial", "C33_refuted"], "Proved for every constructed domain that PDDL text can express (Spec_Domain.v): the domain read back is equal and its constants keep their types. The unconditional property is false of the code (C33_refuted: parameters of two types, untyped variables before typed ones, undeclared supertypes, types without :typing, the type object, :object-fluents, differences, typed functions, undeclared :disjunctive-preconditions)."),
"C46": ("proved", ["C46_and_or", "C46_members", "C46_arithmetic", "C46_fmembers", "C46_single", "C46_others"], "And/Or: for operands obtained through the constructors."),
"C48": ("partial", ["C48_partial", "C48_refuted"], "Proved (outcomes equal, with multiplicities, for all states and assignments) when the effect is not (), its arithmetic is plain as in C47, and no and contains the same choice or additive update twice. Refuted otherwise: a repeated (increase (cost) 1) is made once, a repeated oneof loses an outcome, () becomes a formula with no outcome."),
"C50": ("partial", ["C50_name_requirements", "C50_types_constants", "C50_predicates", "C50_functions_partial", "C50_refuted"], "For every accepted text, against what its sections list (Spec_Declared.v): name, requirements, types with parents, constants with types and predicates with typed variables exactly. Functions exactly except total-cost, whose variables are dropped: C50_refuted gives a text."),
"C54": ("proved", ["C54_domain", "C54_used_domain_parser", "C54_problem", "C54_used_problem_parser", "C54_plan"], "exact sets of outcomes, both directions; the same sets for the generated parser with its callbacks (C72_exceptions); exceptions for lack of resources are not modelled"),
"C56": ("partial", ["C56_meaning", "C56_operators", "C56_not_quantified", "C56_instances_partial", "C56_action_instances_partial", "C56_domain_verdict", "C56_plan_verdict_partial", "C56_refuted", "C56_instances_refuted"], "Proved: meaning, operators, quantifiers, verdict of equal domains; instances (if both are defined) and verdicts on plans (actions with different names). False of the code: constants are compared by name only, so a domain accepts one of two equal problems and not the other (C56_refuted), and one of two equal formulas can be instantiated and the other not (C56_instances_refuted)."),
"C57": ("partial", ["C57_steps_partial", "C57_defined_partial", "C57_nothing", "C57_renamed_partial", "C57_refuted", "C57_refuted_first"], "The result is identical whenever the first step and the direct replacement are defined, and they are when the new terms have one type per name. False of the code otherwise: the first step may merge operands for which the direct replacement raises (C57_refuted), or raise itself (C57_refuted_first)."),
"C58": ("proved", ["C58_domain", "C58_problem", "C58_plan"], "For all texts and all states of the parser object, against the grammar file copied rule by rule in Spec_Grammar.v."),
"C59": ("partial", ["C59_plan", "C59_refuted", "C59_domain_partial", "C59_problem_partial"], "True of all plans. False of domains and problems (C59_refuted: a subtraction with two operands, an equation beginning with a bare function name); proved for the rest of the grammar (in_plain_grammar of Spec_Grammar.v: words like 'and' or 'increase' are not used as names). The two conflicts of the grammar are resolved in Parser.arith_op and Parser.starts_term as the generated tables resolve them (C71, C72)."),
"C61": ("partial", ["C61_refuted", "C61_copy_refuted", "C61_value_partial", "C61_partial"], "False of the code: hash() can raise AttributeError when the object is pickled or copied at the same time, and so can a copy. Proved: every hash that is returned is right under every schedule; hash() never fails and finishes within a fixed number of its own steps when the objects copied or pickled meanwhile are not among those it reads (in particular when all threads only hash)."),
"C62": ("proved", ["C62_text", "C62_constructor", "C62_problem", "C62_new_problem", "C62_plan"], "Text, constructor, Problem.check, Problem(domain=...) and Plan.check; :object-fluents is not a word of the grammar, so it is excluded for texts."),
"C63": ("partial", ["C63_refuted", "C63_partial", "C63_constructor_partial", "C63_used"], "False of the code (C63_refuted: a domain with no requirements using all of them is accepted). C63_partial: :strips, :negative-preconditions, :conditional-effects and :derived-predicates never change the outcome of parsing; C63_used: every other flag does for some domain. Features that do need their flag are C35 and C45."),
"C64": ("partial", ["C64_refuted", "C64_shape", "C64_actions", "C64_derived_partial", "C64_fewer_partial", "C64_order_partial", "C64_derived_first", "C64_actions_only"], "False of the code for derived predicates (C64_refuted: swapping an action and a derived predicate gives another domain). C64_actions: actions are read one by one, without restriction. C64_derived_partial: a derived predicate depends on its own text, the declarations and the last action in front of it, and on nothing else. C64_fewer_partial and C64_order_partial: leaving out, repeating and reordering are harmless as long as each derived predicate keeps its last action; C64_derived_first and C64_actions_only are the cases where that always holds."),
"C65": ("partial", ["C65_refuted", "C65_problem_refuted", "C65_constants_partial", "C65_heads_partial"], "False of the code: undeclared predicates, wrong numbers of arguments, undeclared functions and variables (C65_refuted) and undeclared predicates, functions and objects in problems (C65_problem_refuted) are accepted. Proved: constants of actions and derived predicates are declared with that type (C65_constants_partial), and heads of derived predicates are declared with that number of arguments (C65_heads_partial)."),
"C66": ("proved", ["C66_exact", "C66_concat", "C66_check", "C66_instantiate"], "C66_exact: the accepted texts and their plans, in both directions. C66_concat: texts one below the other. C66_check and C66_instantiate: plans one after the other."),
"C68": ("partial", ["C68_refuted", "C68_raises", "C68_three_partial", "C68_unrelated", "C68_strict", "C68_atoms_partial"], "False of the code: And, Or, Not, Imply, EqualTo and arithmetic objects raise TypeError, and two quantified objects over different variables can each be greater than the other. Exact description of both, and < proved a strict order."),
"C69": ("proved", ["C69_conditions", "C69_parts", "C69_domain", "C69_problem", "C69_parsed"], "The new object is the same value in the model (same operands in the same order), for problems the same attributes and ==. Python's dicts have distinct keys: the == of two domains is stated for functions given as the items of a dict. A problem left behind by a failed domain assignment is excluded. Example the_next_domain shows a difference == does not see: the copy has requirements of its own and may refuse another domain later."),
"C70": ("proved", ["C70_domain", "C70_problem", "C70_plan", "C70_constructors", "C70_equal", "C70_operations", "C70_exchange"], "Holds for every renaming that is injective, keeps the reserved words and what is not a name. Problem.check needs that the two domain names differ only by case exactly when their new names do. Printing is not covered: the printed order is alphabetical."),
"C71": ("proved", ["C71_every_text_gets_one_answer", "C71_an_accepted_text_has_a_tree", "C71_trees_are_derivations", "C71_words_have_one_tree", "C71_the_text_of_a_tree_is_read", "C71_an_exception_is_that_of_a_tree", "C71_other_texts_raise_an_exception"], "For all callbacks and states. The tables are generated by tools/lalr_coq.py and validated in Coq against the grammar of Spec_Lark.v, which is the file's grammar with Lark's conflict resolution written out."),
"C72": ("proved", ["C72_domain_accepted", "C72_problem_accepted", "C72_plan_accepted", "C72_touching_words", "C72_rejected", "C72_domain_returned", "C72_problem_returned", "C72_plan_returned", "C72_domain_result", "C72_problem_result", "C72_plan_result", "C72_domain_exception", "C72_problem_exception", "C72_plan_exception", "C72_exceptions"], "The generated parser with the transformers' methods accepts exactly the texts with separated words that Parser.v accepts, with the same values and attributes; every text with a tree gets the same result, value or exception. When words touch that only Lark's contextual lexer separates, what is returned is what Parser.v returns for the same words with blanks between them (C72_touching_words). On any text, an exception other than a syntax error is the one Parser.v raises for a text that begins with the words read so far (Parser.v reads the whole text first, so on a text with several errors it may report a later syntax error instead); the sets of possible exceptions are equal (C72_exceptions)."),
"C73": ("partial", ["C73_domain_partial", "C73_declared_partial", "C73_enough_partial", "C73_problem_partial", "C73_problem_declaring", "C73_problem_refuted"], "Proved in full for domain texts. For problem texts the named requirement is one the goal needs, but declaring it does not help: every problem text with the same sections fails with the same error whatever it declares (C73_problem_declaring), so the last sentence is false of the code (C73_problem_refuted)."),
"C67": ("partial", ["C67_new", "C67_new_problem", "C67_new_plan", "C67_set_domain", "C67_refuted", "C67_shared_refuted", "C67_types_refuted", "C67_requirements_refuted", "C67_plan_refuted", "C67_domain_partial", "C67_arguments_partial", "C67_problem_partial", "C67_problem_with_domain_partial", "C67_plan_partial"], "False of the code: the dict given as functions is kept and shared (C67_refuted, C67_shared_refuted), the dicts of d.types and d.functions and the set of p.requirements are the object's own (C67_types_refuted, C67_requirements_refuted), and a plan keeps its lists (C67_plan_refuted). Proved for all programs: a new object is the one the constructors of the value model build (C67_new, C67_new_problem, C67_new_plan), an assignment of a domain changes what the value model says and nothing else (C67_set_domain), and nothing else changes a domain, problem or plan; the requirements of a problem made with a domain cannot be changed through the problem (C67_problem_with_domain_partial)."),
"C74": ("partial", ["C74_formulas", "C74_equal_formulas_partial", "C74_domains_partial", "C74_problems_partial", "C74_plans", "C74_refuted", "C74_formulas_refuted"], "False of the code: the types of variable occurrences are compared by == and not printed (C74_refuted), and a predicate and a function of one name print alike (C74_formulas_refuted). C74_formulas says exactly which formulas have the same text. Domains, problems and plans: proved for those of C33, C32 and C30; for problems == also compares the domain objects, of which the text has only the name."),
"C51": ("proved", ["C51_problems", "C51_metric", "C51_init"], "For every accepted text: name, domain name, requirements, typed objects, initial state, presence and direction of the metric. C51_init: each element of :init, with the types of its objects; what is listed twice (under ==) is there once. The meaning of :init and :goal is C47."),
"C47": ("partial", ["C47_actions_partial", "C47_derived_partial", "C47_problem_partial", "C47_refuted", "C47_metric_partial", "C47_metric_refuted"], "Preconditions, derived conditions, goals and metrics: proved when no sum, product or quotient has the same operand twice and no quotient is divided by a quotient, and the precondition is not (); for metrics also when no number is written like 1.2.3. Initial facts: proved for all. Refuted otherwise: (>= (+ (fuel) (fuel)) 2) loses an operand, so does the metric (+ (fuel) (fuel)); the empty precondition () becomes one that never holds."),
"C75": ("partial", ["C75_formulas", "C75_terms", "C75_derived", "C75_metrics", "C75_actions", "C75_requirements", "C75_equal_partial", "C75_same_partial", "C75_refuted", "C75_numbers_refuted", "C75_order_refuted"], "Proved, as exact conditions: two terms, formulas or effects (without numbers outside str parts), derived predicates, metrics and actions have the same repr exactly when they differ at most in types and in what str does not say; requirements exactly when equal. False of the code in general: types are left out (C75_refuted), a number is shown by its address (C75_numbers_refuted), sets in iteration order (C75_order_refuted)."),
"C76": ("partial", ["C76_one_successor_partial", "C76_types", "C76_types_quadratic", "C76_refuted"], "False of the code in general: for every m there is an acyclic graph with m+1 nodes on which the call is still running after 2^m iterations (nodes seen before are walked again). Proved for graphs with at most one successor per node, hence for all type hierarchies: (n+1)^2 iterations, with the answer of C09; C76_types_quadratic: half of that is needed by an accepted hierarchy."),
"C31": ("partial", ["C31_conditions_partial", "C31_effects_partial", "C31_conditions_exact", "C31_effects_exact", "C31_refuted"], "The unconditional property is false of the code (C31_refuted): quantified variables with several types or tagged occurrences, differences, negative numbers, collapsed sums. Proved by induction for every condition / effect that PDDL text can express in the context (Spec_Text.v), in every state of the domain parser; and exact: among the formulas made of legal terms and non-negative numbers, no other comes back equal with the same constants (C31_*_exact)."),
"C77": ("partial", ["C77_refuted", "C77_constructor_refuted", "C77_domain_partial", "C77_problem", "C77_problem_with_domain_partial", "C77_domain_text_partial", "C77_problem_text"], "False when == does not tell two listed things apart (a predicate declared twice in different ways; two constants of one name); proved for every text and constructor call without such pairs. The order of the actions and derived predicates of a text is C64."),
"C78": ("partial", ["C78_parsed_domain", "C78_parsed_problem", "C78_parsed_parts", "C78_plan", "C78_formulas", "C78_actions", "C78_domain_partial", "C78_problem", "C78_refuted", "C78_command"], "Holds of every parsed domain, problem and plan and of everything the command line tool prints. A constructed domain may carry an unchecked function type such as ')' whose text is not balanced (C78_refuted); constructed objects satisfy it when function types and numbers kept as text are balanced."),
"C79": ("partial", ["C79_domain_cut", "C79_problem_cut", "C79_domain_continued", "C79_problem_continued", "C79_plan_refuted", "C79_plan_cut_partial", "C79_plan_continued_partial", "C79_interrupted", "C79_generated_cut", "C79_generated_continued", "C79_state_refuted"], "Proved in full for domains and problems, for every cut, every continuation and every interruption of the writing of a printed text, for the reader of Parser.v and for the generated parsers (C79_generated_cut). False of plans (C79_plan_refuted): a part of a plan text is a syntax error or exactly the first steps of the plan. Beyond the statement: a rejected part of a text leaves its types in the parser object, and the next call with types fails (C79_state_refuted)."),
"C34": ("partial", ["C34_partial", "C34_successes_partial", "C34_problems_partial", "C34_problems_equal", "C34_refuted"], "False in general (C34_refuted: types, requirements and constants of earlier calls stay in force). Proved for all values of the parser's attributes without types left behind (in particular after any number of successful calls, C34_successes_partial) and every text with its own requirements, constants and predicates whose first definition is an action. Problem parsers: the identical problem for texts with :objects (C34_problems_partial), and the same exception or an equal problem for all texts (C34_problems_equal)."),
"C80": ("proved", ["C80_accepted_iff", "C80_error", "C80_not_a_literal"], "Domains given to the constructor are ones that the constructor of Domain accepted."),
"C81": ("proved", ["C81_predicate", "C81_function", "C81_error", "C81_call_instantiates", "C81_types_refuted"], "In full. C81_types_refuted shows that the restriction to functions in the statement is needed: Predicate.__call__ does not compare types."),
"C37": ("partial", ["C37_never_applicable", "C37_refuted", "C37_missing_formula"], "False of the code: an empty precondition is parsed to an empty disjunction. C37_never_applicable: in every accepted domain an action written with :precondition () has a precondition that holds in no state (holds of Sem.v). C37_refuted: a concrete domain for which the claim fails. C37_missing_formula: ensure_formula (which the parser does not use) and a problem without goal behave as the property asks."),
"C82": ("proved", ["C82_words", "C82_variables", "C82_constants", "C82_metric"], "Type collections given twice are merged (ensure_set), so that repeated types are accepted here."),
"C01": ("proved", ["C01_names", "C01_errors", "C01_errors_type", "C01_errors_function", "C01_collections"], ""),
"C84": ("partial", ["C84_refuted", "C84_action_partial", "C84_plan_partial"], "False when additive effects become equal. Proved when no operand is lost in this way and no quantifier captures."),
"C16": ("partial", ["C16_bound_refuted", "C16_capture_refuted", "C16_merge_refuted", "C16_partial", "C16_derived_partial", "C16_effects_refuted", "C16_effects_partial"], "False of the code: quantifiers are not respected, and operands of arithmetic that become equal are merged; so are equal increases in an effect. Proved when none of these happens, for conditions, derived conditions and effects."),
"C29": ("partial", ["C29_formulas_partial", "C29_domains_partial", "C29_problems_partial", "C29_plans", "C29_any_order_partial", "C29_problem_any_order_partial", "C29_refuted", "C29_domain_refuted"], "Proved for all iteration orders: plans unconditionally; formulas, domains and problems when quantifiers bind one variable of one type, parameters have one type, no number is an int on one side and a float on the other, and equal constants have the same type (Spec_Same.v). C29_any_order_partial and C29_problem_any_order_partial state it for one object whose sets are iterated in another order (Spec_Orders.v), where the conditions on numbers and constants are not needed. Without these conditions the property is false of the code (C29_refuted, C29_domain_refuted)."),
"C52": ("partial", ["C52_domains_partial", "C52_problems_partial", "C52_problems", "C52_built_domains", "C52_built_problems", "C52_any_order_partial", "C52_problem_any_order", "C52_refuted", "C52_domains_refuted"], "Problems: whenever the printed text is accepted at all it is a fixed point (C52_problems, all texts), also if the sets are iterated in any other order in either run (C52_problem_any_order); it is accepted exactly for writable_problem (C49_problems_exact). Domains: proved for the files whose contents the library can write back (writable_domain, as in C49) and for all expressible objects built through the API; for any two iteration orders if no quantifier has two variables (C52_any_order_partial). False of the code otherwise: some accepted files are printed as a text that is rejected, so no second run exists (C52_refuted), and some domains as an accepted text that the second run changes (C52_domains_refuted)."),
"C49": ("partial", ["C49_domains_partial", "C49_problems_partial", "C49_problems_exact", "C49_any_order_partial", "C49_problem_any_order", "C49_refuted", "C49_order_refuted"], "Proved for every accepted text whose contents meet writable_domain / writable_problem (Spec_Format.v): types only with :typing and with declared supertypes, one type per variable of functions, actions and quantifiers, sums and products without repeated operands, no () effect, derived predicates declared once with distinct variables that keep their types. For problems the condition is exact: the printed text is accepted iff it holds (C49_problems_exact), whatever the iteration order (C49_problem_any_order). Domains: for the insertion order of sets, and for every iteration order if no quantifier has both typed and untyped variables (C49_any_order_partial); otherwise the result depends on the hash seed (C49_order_refuted). Refuted otherwise: each other construct is accepted, but its printed form is rejected or declares something else."),
"C85": ("partial", ["C85_solutions_partial", "C85_refuted"], "Proved for all texts in which no parameter and no variable of a derived predicate's head is repeated, no precondition or effect is written (), no derived predicate is declared in two ways, and arithmetic and effects meet the conditions of C47 and C48 (clear_text in Spec_Task.v). Refuted without them: an action with precondition () is executable according to the text, never after parsing."),
"C55": ("proved", ["C55_success", "C55_agrees", "C55_check_name", "C55_output", "C55_accepted_only", "C55_quiet", "C55_errors", "C55_again"], "The tool modelled over file contents; click's argument handling and the reading of files are not modelled. C55_success assumes different action names; C55_again assumes the constructs of C49."),
"C17": ("partial", ["C17_wrong_number", "C17_refuted", "C17_right_number_partial", "C17_grounded", "C86_action", "C86_action_error"], "The 'iff' is false: same-named constants with different types raise as well. Proved when terms of one name have one type; the exact condition is C86_action."),
"C87": ("proved", ["C87_domain", "C87_problem", "C87_plan", "C87_domain_nesting", "C87_problem_nesting"], "Types attached to terms are not counted (a typed list with (either ...) repeats its types for each variable)."),
"C83": ("partial", ["C83_equal", "C83_formatted_partial", "C83_any_order_partial", "C83_printed_partial"], "The part about equal tasks is proved in full. For formatted files under the conditions of C49 (writable domains and problems), for the iteration order in which the parser inserts (C83_formatted_partial), and for every iteration order of the sets if no quantifier has both typed and untyped variables (C83_any_order_partial). Tasks built in Python and written to files: under the conditions of C32 and C33 (C83_printed_partial)."),
"C88": ("partial", ["C88_alone", "C88_own_parsers", "C88_finishes", "C88_locked", "C88_refuted", "C88_silent_refuted", "C88_declarations_partial", "C88_problem_alone", "C88_problem_own_parsers", "C88_problem_finishes", "C88_problem_refuted", "C88_problem_error_refuted", "C88_problem_fields_partial", "C88_same_objects"], "Proved in full for threads with parsers of their own, and termination in all cases. C88_locked: with a lock around the calls a shared DomainParser behaves as one used again and again (C34). False for a shared DomainParser without a lock: a concurrent call raises AssertionError, or returns a domain whose conditions lost the types of their variables. False for a shared ProblemParser: a problem gets the objects of another text, or AttributeError is raised. Proved for shared parsers: the declarations of a returned domain and everything but the objects of a returned problem are those of the text; a shared ProblemParser is safe for texts with one :objects section."),
"C89": ("partial", ["C89_problems", "C89_domain_refuted", "C89_domain_exact", "C89_domain_stuck", "C89_domain_partial"], "ProblemParser: proved in full. DomainParser: false; a call interrupted between :types and its end makes the parser reject every text with :types (C89_domain_stuck), and for accepted texts with :types these are exactly the interruptions that do so (C89_domain_exact). Proved after interrupted calls of texts without :types and calls that returned a domain, for texts with their own requirements, constants and predicates whose first definition is an action."),
"C20": ("partial", ["C20_refuted", "C20_partial", "C20_given_together", "C20_disagreement", "C20_name_mismatch_accepted", "C20_domain_attribute", "C20_assign_exact", "C20_later_assignments", "C20_undo", "C20_histories", "C20_undo_refuted"], "The second half is false of the code: a rejected assignment stays in place (C20_refuted), for good if the problem had no domain before (C20_undo_refuted). First half proved for all histories. C20_assign_exact: exactly which assignments are accepted. C20_later_assignments: rejected assignments have no influence on later ones. C20_undo: assigning the old domain again restores the problem exactly."),
"C39": ("partial", ["C39_refuted", "C39_partial", "C39_after_failure", "C39_stopped_partial", "C39_stopped_exact", "C39_stopped_values", "C39_stopped_refuted"], "False of the code when tracebacklimit was unset or None: it stays 0 after a failure and None after a success. Proved that a number is always restored by calls that end by themselves. C39_stopped_exact: a call stopped from outside (KeyboardInterrupt) loses the number exactly when the finally block has begun and not yet assigned."),
"C14": ("partial", ["C14_refuted", "C14_action_partial", "C14_bodies_compulsory", "C14_text_compulsory", "C14_text_parts_needed", "C14_action_error"], "False of the code: Domain raises NotImplementedError on an action without precondition or effect, and the parser raises TypeError on one (C14_action_error), so that both are written in every accepted text (C14_text_compulsory). Proved: Action itself accepts both absences."),
"C44": ("partial", ["C44_partial", "C44_texts_partial", "C44_refuted", "C44_functions_exact", "C44_functions_texts"], "False for :functions: repeating a function raises TypeError instead of PDDLParsingError (C44_refuted), and exactly that does (C44_functions_exact; whole texts: C44_functions_texts). Proved for types, constants, objects, parameters and predicate arguments."),
"C18": ("partial", ["C18_refuted", "C18_partial", "C18_error", "C18_order_partial", "C18_exact", "C18_every_order", "C18_some_order"], "False of the code when two actions share a name (Domain accepts that): the verdict depends on the order of a set. Proved for domains with distinct action names; for all other domains C18_exact says which plans are accepted, C18_every_order and C18_some_order which are accepted in every or in some order of the set."),
"C86": ("partial", ["C86_action", "C86_action_error", "C86_plan_partial", "C86_parsed_schemas", "C86_parsed_partial", "C86_plan_exact", "C86_every_order", "C86_refuted"], "Exact for actions whose parameters are different variables (all parsed ones). Plans: exact for domains whose actions have different names, with what is raised; if several actions have one name, C86_plan_exact for a given order of the set of actions and C86_every_order for all orders. The last sentence is false of the code."),
"C19": ("partial", ["C19_refuted", "C19_partial", "C19_exact_partial", "C19_exact"], "False of the code for conditional and universal effects, and for same-named constants with different types; proved otherwise, and exactly for every parsed domain (C19_exact; also when several actions have one name)."),
"C53": ("partial", ["C53_partial", "C53_all", "C53_refuted", "C53_exact"], "Proved as stated for heads with distinct variables (C53_partial, C53_all). C53_refuted: a variable repeated in a head takes the declared types of its last place at every place. C53_exact: for all heads, that this is exactly what happens."),
"C22": ("partial", ["C22_refuted", "C22_partial", "C22_exact", "C22_sorted"], "False of the code: < is reflexive and >= irreflexive. <= and > are a total and a strict total order. C22_exact: all four comparisons exactly; < and >= are wrong precisely where both sides are the same requirement. C22_sorted: sorted() of a set of requirements lists it strictly increasing, for every iteration order."),
"C23": ("partial", ["C23_refuted", "C23_derived_refuted", "C23_terms_partial", "C23_predicates", "C23_sorted", "C23_terms_exact", "C23_sorted_terms", "C23_derived_exact"], "False of terms exactly when two constants of one name have different types (C23_terms_exact; < is transitive always), and of derived predicates (C23_derived_exact: what < returns or raises). Predicates are totally ordered in all cases. sorted() of a set of predicates or terms never depends on its iteration order (C23_sorted, C23_sorted_terms)."),
"C90": ("partial", ["C90_right", "C90_exact", "C90_refuted", "C90_derived_partial", "C90_derived_raises"], "False of the code: constants of one name with different types are == and yet one is < the other (C90_refuted), and derived predicates with one head may raise TypeError. C90_right: > and <= of terms are right in all cases. C90_exact: exactly when all four agree. Derived predicates: right for different heads; exactly when TypeError is raised (C90_derived_raises)."),
"C60": ("partial", ["C60_refuted", "C60_values_partial", "C60_partial", "C60_overlap_partial", "C60_overlap_apart", "C60_one_call"], "False of the code: C60_refuted gives an interleaving of two successful calls after which the limit is 0 instead of 10. Proved: at every moment of every schedule the value is the old one, 0 or None; a number is kept when calls do not overlap (C60_partial), and more generally when no call begins while another is between setting and restoring the limit (C60_overlap_partial, which covers C60_partial by C60_overlap_apart); a call alone is call_parser of C39."),
"C07": ("partial", ["C07_refuted", "C07_self_refuted", "C07_sum_partial", "C07_product_partial", "C07_difference_partial", "C07_quotient_partial", "C07_sum_exact", "C07_product_exact", "C07_difference_exact", "C07_quotient_exact", "C07_one"], "False of the code: the constructors drop repeated operands and flatten nested - and / (x - x becomes -x: C07_self_refuted). The partial theorems cover pairwise different operands without such nesting. C07_sum_exact and C07_product_exact: for all operands, the value lost is exactly that of the operands that occur again, so that a sum is right exactly if these add up to 0. C07_difference_exact, C07_quotient_exact: the value of every difference and quotient."),
}
