{"id": "C01", "title": "Names are exactly the non-keyword PDDL identifiers", "statement": "parse_name accepts a string iff it is a letter followed by letters, digits, '-' or '_' and is not a PDDL keyword; parse_type additionally accepts 'object' and parse_function additionally accepts 'total-cost'. An accepted name equals its input, a rejected keyword raises PDDLValidationError, any other rejected string raises ValueError.", "quantifier": "every string", "why_tests_cant": "There are infinitely many strings; a test enumerates a few good and bad ones.", "anchors": ["pddl/custom_types.py:name,parse_name,parse_type,parse_function,_is_a_keyword", "pddl/helpers/base.py:RegexConstrainedString", "pddl/parser/symbols.py:ALL_SYMBOLS"]}
{"id": "C02", "title": "== is an equivalence relation on terms, formulas, effects, actions, domains, problems and plans", "statement": "For all objects built with the public constructors, a == a; a == b implies b == a; a == b and b == c imply a == c.", "quantifier": "all terms, formulas, functions, effects, actions, domains, problems, plans of any depth", "why_tests_cant": "Relational laws over an infinite recursive class of objects.", "anchors": ["pddl/logic/terms.py:__eq__", "pddl/logic/base.py:__eq__", "pddl/logic/predicates.py:__eq__", "pddl/logic/functions.py:__eq__", "pddl/logic/effects.py:__eq__", "pddl/action.py:__eq__", "pddl/core.py:__eq__"]}
{"id": "C03", "title": "Equal objects have equal hashes", "statement": "If a == b then hash(a) == hash(b), for every choice of the runtime's string/number/tuple/frozenset hash functions; so sets and dicts keyed by these objects never keep two equal keys.", "quantifier": "all pairs of hashable objects (terms, formulas, functions, effects, actions) and all hash seeds", "why_tests_cant": "Quantifies over all pairs of objects and all PYTHONHASHSEED values.", "anchors": ["pddl/logic/terms.py:__hash__", "pddl/logic/base.py:__hash__", "pddl/logic/predicates.py:__hash__", "pddl/logic/functions.py:__hash__", "pddl/logic/effects.py:__hash__", "pddl/action.py:__hash__"]}
{"id": "C04", "title": "The memoised hash is never stale", "statement": "For an object of a class decorated with cache_hash, after any history of hash() calls, pickling, unpickling in an interpreter with a different hash seed, and shallow copies, hash(obj) returns what the undecorated __hash__ would return in the current interpreter.", "quantifier": "all histories of hash / getstate / setstate / copy operations and all seed changes", "why_tests_cant": "A property of all operation histories across interpreters with different seeds.", "anchors": ["pddl/helpers/cache_hash.py:_cache_hash,_getstate,_setstate,cache_hash"]}
{"id": "C05", "title": "Building And/Or never changes the meaning", "statement": "And(*ops) is true exactly when all ops are true and Or(*ops) exactly when at least one is, in every state, for every interpretation of predicates, functions and quantifiers, although the constructor deduplicates, flattens and may return an operand itself.", "quantifier": "all operand lists (any length, nesting, repetition) and all interpretations", "why_tests_cant": "Semantic equivalence over all interpretations and all nested formulas.", "anchors": ["pddl/logic/base.py:BinaryOpMetaclass,_simplify_monotone_op_operands,And,Or"]}
{"id": "C06", "title": "And/Or objects are always in normal form and construction is idempotent", "statement": "Every formula built through the constructors contains only And/Or nodes without directly nested nodes of the same kind, without two equal operands and never with exactly one operand; re-applying the constructor to the operands of such a node returns an equal node.", "quantifier": "all formulas reachable through the constructors, at every depth", "why_tests_cant": "An invariant of every reachable object.", "anchors": ["pddl/logic/base.py:BinaryOpMetaclass,_simplify_monotone_op_operands"]}
{"id": "C07", "title": "Arithmetic constructors preserve the numeric value", "statement": "Plus, Times, Minus and Divide applied to operands denote the sum, product, difference and quotient of the operands' values.", "quantifier": "all operand lists and all assignments of numeric fluents", "why_tests_cant": "Semantic equality over all fluent assignments.", "anchors": ["pddl/logic/functions.py:Plus,Minus,Times,Divide,EqualTo", "pddl/logic/base.py:BinaryOpMetaclass,_simplify_monotone_op_operands"]}
{"id": "C08", "title": "Operator overloads mean what they look like", "statement": "~f, f & g, f | g and f >> g denote negation, conjunction, disjunction and implication in every state.", "quantifier": "all formulas f, g and all interpretations", "why_tests_cant": "Semantic equality over all interpretations.", "anchors": ["pddl/logic/base.py:Formula.__invert__,__and__,__or__,__rshift__"]}
{"id": "C09", "title": "find_cycle terminates and returns None exactly on acyclic graphs", "statement": "For every finite adjacency dictionary (also with neighbours that are not keys), find_cycle returns; it returns None iff no node lies on a cycle.", "quantifier": "all finite directed graphs", "why_tests_cant": "Termination and completeness over all graphs.", "anchors": ["pddl/helpers/base.py:find_cycle"]}
{"id": "C10", "title": "The path reported by find_cycle witnesses a cycle", "statement": "When find_cycle returns a path, consecutive nodes are edges of the graph and the last node has an edge back to a node of the path, so a suffix of it is a cycle.", "quantifier": "all finite directed graphs", "why_tests_cant": "Soundness over all graphs.", "anchors": ["pddl/helpers/base.py:find_cycle"]}
{"id": "C11", "title": "A type hierarchy is accepted iff it is well formed", "statement": "A domain's types dictionary is accepted iff every name is a legal type name and (it is empty, or: no supertypes are used without :typing, 'object' has no supertype, and the hierarchy is acyclic). In particular requirements implying :typing should allow hierarchies.", "quantifier": "all types dictionaries and requirement sets", "why_tests_cant": "Acyclicity and requirement closure over all dictionaries.", "anchors": ["pddl/_validation.py:Types,_check_types_dictionary", "pddl/requirements.py:_extend_domain_requirements"]}
{"id": "C12", "title": "Type checking accepts exactly the well-typed objects", "statement": "check_type succeeds on a formula, effect or action iff every term occurring anywhere in it (including quantified variables) uses only declared types, and uses no type at all unless :typing is declared or implied; otherwise it raises PDDLValidationError.", "quantifier": "all formulas/effects/actions of any depth, all type sets, all requirement sets", "why_tests_cant": "Completeness of a recursive traversal over all shapes.", "anchors": ["pddl/_validation.py:TypeChecker.check_type"]}
{"id": "C13", "title": "An accepted domain only mentions declared types", "statement": "If Domain(...) succeeds, then every type mentioned by its constants, predicates, functions, derived predicates and actions is declared.", "quantifier": "all accepted domains", "why_tests_cant": "Invariant of all accepted inputs.", "anchors": ["pddl/core.py:Domain._check_consistency,_check_types_in_derived_predicates", "pddl/_validation.py:_check_types_in_has_terms_objects,_find_inconsistencies_in_typed_terms"]}
{"id": "C14", "title": "Precondition and effect are optional", "statement": "An Action may be built without precondition or effect (both default to None), and a well-typed domain containing such an action is accepted.", "quantifier": "all domains with well-typed actions", "why_tests_cant": "Acceptance over all domains.", "anchors": ["pddl/action.py:Action.__init__", "pddl/_validation.py:TypeChecker.check_type", "pddl/core.py:Domain._check_consistency"]}
{"id": "C15", "title": "Atoms have name-consistent types", "statement": "Predicate(name, *terms) and EqualTo(l, r) succeed iff the name is legal and any two terms with the same name carry the same set of type tags; the built object keeps name and terms unchanged and in order.", "quantifier": "all term sequences", "why_tests_cant": "Pairwise property over sequences of any length.", "anchors": ["pddl/logic/predicates.py:_check_terms_consistency,Predicate.__init__,EqualTo.__init__"]}
{"id": "C16", "title": "Instantiation is semantic substitution", "statement": "The truth of f.instantiate(mapping) in a state equals the truth of f in the state where each mapped variable is bound to the denotation of its image; nothing else changes.", "quantifier": "all conditions, all mappings, all interpretations", "why_tests_cant": "Substitution lemma over all formulas and interpretations.", "anchors": ["pddl/logic/base.py:instantiate", "pddl/logic/predicates.py:instantiate", "pddl/logic/functions.py:instantiate"]}
{"id": "C17", "title": "Grounding an action grounds its whole body", "statement": "action.instantiate(terms) raises ValueError iff the number of terms differs from the number of parameters (for actions whose body supports instantiation); on success the parameters are the given terms, the name is unchanged, and no parameter variable occurs in the instantiated precondition or effect outside quantifier binders.", "quantifier": "all actions and all ground term lists", "why_tests_cant": "Recursive traversal over all bodies.", "anchors": ["pddl/action.py:Action.instantiate", "pddl/logic/effects.py:When,Forall"]}
{"id": "C18", "title": "Plan.check accepts exactly the plans whose steps exist, have the right arity and use known objects", "statement": "plan.check(domain, problem) succeeds iff for every step the action name is defined in the domain, the number of parameters equals the schema's, and every parameter is a problem object or a domain constant; otherwise it raises PDDLValidationError. The verdict does not depend on set iteration order.", "quantifier": "all plans (any length), domains, problems, iteration orders", "why_tests_cant": "Quantifies over all plans and all hash seeds.", "anchors": ["pddl/core.py:Plan.check"]}
{"id": "C19", "title": "A checked plan can be instantiated", "statement": "If plan.check(domain, problem) succeeds then plan.instantiate(domain) succeeds and yields one ground action per step, in order, with the step's name and parameters.", "quantifier": "all plans, domains, problems", "why_tests_cant": "Relates two traversals over all plans.", "anchors": ["pddl/core.py:Plan.check,Plan.instantiate", "pddl/action.py:Action.instantiate"]}
{"id": "C20", "title": "A problem stays consistent with its domain", "statement": "After construction and any history of successful domain assignments, problem.domain_name and problem.requirements are those of the attached domain and the problem type-checks against it; a rejected assignment leaves the problem unchanged.", "quantifier": "all histories of domain assignments and checks", "why_tests_cant": "Invariant over operation histories including failures.", "anchors": ["pddl/core.py:Problem.__init__,Problem.domain,Problem.check,_parse_domain_and_domain_name,_parse_requirements"]}
{"id": "C21", "title": "Requirement implication is a closure", "statement": "The extended requirement set contains the declared ones, exactly the ones implied by :adl, :quantified-preconditions and :fluents, is monotone and is idempotent.", "quantifier": "all requirement sets", "why_tests_cant": "Closure laws over all subsets.", "anchors": ["pddl/requirements.py:_extend_domain_requirements,Requirements"]}
{"id": "C22", "title": "Requirements are totally ordered", "statement": "The comparison operators on Requirements form a strict total order (irreflexive, transitive, trichotomous) and >= / <= agree with it.", "quantifier": "all pairs/triples of requirements", "why_tests_cant": "Order laws over all tuples.", "anchors": ["pddl/requirements.py:Requirements.__lt__"]}
{"id": "C23", "title": "Terms and predicates are totally ordered compatibly with ==", "statement": "For any two terms or predicates exactly one of a < b, a == b, b < a holds and < is transitive, so sorted() gives the same list for every iteration order of a set.", "quantifier": "all terms/predicates of any arity; all set iteration orders", "why_tests_cant": "Order laws over all triples and all hash seeds.", "anchors": ["pddl/logic/terms.py:Term.__lt__", "pddl/logic/predicates.py:Predicate.__lt__", "pddl/logic/predicates.py:DerivedPredicate.__lt__"]}
{"id": "C24", "title": "Typed lists assign to each name exactly the type that follows it", "statement": "Parsing 'x1..xn - t y1..ym - u z1..zk' yields the items in order, each with the type tags of the first separator after it and no tags after the last separator; names must be distinct for name lists, and repeated variables must repeat the same tags; otherwise a ValueError is raised.", "quantifier": "all token lists produced by the grammar", "why_tests_cant": "Lists of any length and any number of groups.", "anchors": ["pddl/parser/typed_list_parser.py:TypedListParser"]}
{"id": "C25", "title": "Printing and re-parsing typed constants is the identity", "statement": "The token list printed for a set of constants, parsed again as a typed list, gives the same name-to-type dictionary.", "quantifier": "all sets of constants and all iteration orders", "why_tests_cant": "Round trip over all sets and hash seeds.", "anchors": ["pddl/formatter.py:print_constants,print_typed_lists", "pddl/parser/typed_list_parser.py:TypedListParser"]}
{"id": "C26", "title": "The :types section lists every type once, parents first, and never fails on accepted hierarchies", "statement": "For an acyclic types dictionary the formatter never raises 'Cycle in types'; every type is listed exactly once under its parent (roots under object) and the line of a parent precedes the lines of its children.", "quantifier": "all acyclic type dictionaries", "why_tests_cant": "Termination and topological order over all hierarchies.", "anchors": ["pddl/formatter.py:print_types_or_functions_with_parents,print_typed_lists"]}
{"id": "C27", "title": "Type-tag propagation respects scoping", "statement": "In a derived predicate, after parsing, every free occurrence of a variable of the head carries the head's type tags, every bound occurrence carries the tags of its innermost binder, and nothing but type tags of variables changes.", "quantifier": "all conditions of any depth", "why_tests_cant": "Scoping over arbitrarily nested quantifiers.", "anchors": ["pddl/parser/_update_type_tags.py:update_type_tags", "pddl/parser/domain.py:derived_predicates"]}
{"id": "C28", "title": "Subtype checks terminate with the right verdict", "statement": "For every acyclic hierarchy, checking derived-predicate argument types against the predicate's declared types terminates, and succeeds iff each left type is a descendant-or-self of one of the right types.", "quantifier": "all hierarchies and type sets", "why_tests_cant": "Termination over all inputs.", "anchors": ["pddl/parser/domain.py:_check_subtypes"]}
{"id": "C29", "title": "Equal objects print identically", "statement": "If two domains, problems or formulas are ==, their str() are identical, whatever the hash seed.", "quantifier": "all equal pairs and all set iteration orders", "why_tests_cant": "Quantifies over hash seeds.", "anchors": ["pddl/logic/base.py:QuantifiedCondition.__str__", "pddl/formatter.py", "pddl/core.py:__str__"]}
{"id": "C30", "title": "Plans survive printing and parsing", "statement": "Parsing str(plan) yields a plan equal to the original.", "quantifier": "all plans with legal names, any length", "why_tests_cant": "Round trip over all plans.", "anchors": ["pddl/core.py:Plan.__str__", "pddl/parser/plan.py:PlanTransformer", "pddl/parser/grammar.lark"]}
{"id": "C31", "title": "Conditions and effects survive printing and parsing", "statement": "Parsing the text of a precondition, goal or effect in a context with the same constants, parameters and requirements yields an equal formula.", "quantifier": "all conditions and effects of any depth", "why_tests_cant": "Round trip over an infinite recursive class.", "anchors": ["pddl/logic/base.py:__str__", "pddl/logic/predicates.py:__str__", "pddl/logic/functions.py:__str__", "pddl/parser/domain.py:gd,effect,c_effect,p_effect,cond_effect,f_exp", "pddl/parser/grammar.lark"]}
{"id": "C32", "title": "Problems survive printing and parsing", "statement": "Parsing str(problem) yields a problem equal to the original.", "quantifier": "all problems", "why_tests_cant": "Round trip over all problems.", "anchors": ["pddl/core.py:Problem.__str__", "pddl/parser/problem.py:ProblemTransformer", "pddl/formatter.py"]}
{"id": "C33", "title": "Domains survive printing and parsing", "statement": "Parsing str(domain) yields a domain equal to the original.", "quantifier": "all domains", "why_tests_cant": "Round trip over all domains.", "anchors": ["pddl/core.py:Domain.__str__", "pddl/parser/domain.py:DomainTransformer", "pddl/formatter.py"]}
{"id": "C34", "title": "A parser object can be reused", "statement": "The result of calling a DomainParser on a text depends only on that text, not on what the same parser object parsed (or failed to parse) before.", "quantifier": "all histories of earlier calls, including failed ones", "why_tests_cant": "Quantifies over all call histories.", "anchors": ["pddl/parser/domain.py:DomainTransformer.__init__,types,constants,predicates,action_parameters,domain", "pddl/parser/base.py:BaseParser"]}
{"id": "C35", "title": "Language features require their requirement flags", "statement": "The domain parser accepts a condition using or/imply, forall/exists, = between terms, or oneof only if the corresponding requirement is declared or implied, and otherwise raises PDDLMissingRequirementError; a problem's goal is judged by the requirements the problem declares.", "quantifier": "all conditions and requirement sets", "why_tests_cant": "Quantifies over all nested conditions.", "anchors": ["pddl/parser/domain.py:gd_or,gd_imply,gd_quantifiers,atomic_formula_term,c_effect", "pddl/parser/problem.py:gd"]}
{"id": "C36", "title": "Layout and comments are irrelevant", "statement": "Inserting or removing whitespace between tokens, and comments up to end of line, does not change the result of parsing.", "quantifier": "all texts and all insertion points between tokens", "why_tests_cant": "Quantifies over all texts and positions.", "anchors": ["pddl/parser/grammar.lark:%ignore,COMMENT,NAME,NUMBER"]}
{"id": "C37", "title": "An empty precondition is trivially true", "statement": "An action written with ':precondition ()' is applicable in every state.", "quantifier": "all actions with an empty precondition, all states", "why_tests_cant": "Semantic claim over all states.", "anchors": ["pddl/parser/domain.py:emptyor_pregd,emptyor_effect", "pddl/logic/base.py:ensure_formula"]}
{"id": "C38", "title": "Numbers keep their value through parsing", "statement": "A number written in a precondition, effect, init or metric is parsed to the NumericValue with that numeric value.", "quantifier": "all numerals", "why_tests_cant": "Infinitely many numerals.", "anchors": ["pddl/parser/domain.py:num_literal,f_exp", "pddl/parser/problem.py:metric_f_exp,init_el", "pddl/parser/grammar.lark:NUMBER"]}
{"id": "C39", "title": "Parsing leaves sys.tracebacklimit unchanged", "statement": "After any sequence of successful and failed parser calls, sys.tracebacklimit is what it was before.", "quantifier": "all histories of parser calls with successes and failures and all initial values", "why_tests_cant": "Quantifies over call histories.", "anchors": ["pddl/parser/base.py:BaseParser._call_parser"]}
{"id": "C40", "title": "Action parameters are kept one-to-one", "statement": "A parsed action has exactly the parameters written in its :parameters list, in order, with their types, and every occurrence of a parameter in the body is that parameter.", "quantifier": "all parameter lists", "why_tests_cant": "Lists of any length.", "anchors": ["pddl/parser/domain.py:action_parameters,_constant_or_variable,typed_list_variable"]}
{"id": "C41", "title": "Type tags of terms are duplicate-free legal names", "statement": "Variable(name, tags) succeeds iff the name is legal, the tags (when given as a list) contain no duplicates and all are legal type names; the type_tags are then exactly the given ones. Constant has at most one tag and type_tag returns it.", "quantifier": "all names and tag collections", "why_tests_cant": "All sequences.", "anchors": ["pddl/logic/terms.py:Term.__init__,Constant,Variable", "pddl/helpers/base.py:check_no_duplicates"]}
{"id": "C42", "title": "Formatting only touches layout", "statement": "Indenting and removing empty lines of the printed domain or problem changes neither the tokens nor their order.", "quantifier": "all printed bodies", "why_tests_cant": "All strings.", "anchors": ["pddl/formatter.py:remove_empty_lines", "pddl/core.py:__str__"]}
{"id": "C43", "title": "Typed variable lists survive printing and parsing", "statement": "The printed form of a list of typed variables (action parameters, predicate arguments, quantified variables) parses back to the same variables with the same types.", "quantifier": "all variable lists", "why_tests_cant": "Lists of any length and mixes of typed/untyped variables.", "anchors": ["pddl/helpers/base.py:_typed_parameters", "pddl/formatter.py:print_predicates_with_types,print_function_skeleton", "pddl/logic/base.py:QuantifiedCondition.__str__", "pddl/parser/domain.py:typed_list_variable"]}
{"id": "C44", "title": "Errors in typed lists are reported as PDDLParsingError", "statement": "A typed list with duplicate or inconsistent items (types, constants, objects, parameters, functions) makes the parser raise PDDLParsingError.", "quantifier": "all malformed typed lists", "why_tests_cant": "All lists.", "anchors": ["pddl/parser/domain.py:typed_list_name,typed_list_variable,f_typed_list_atomic_function_skeleton,_raise_typed_list_parsing_error"]}
{"id": "C45", "title": "total-cost and numeric fluents require their requirements", "statement": "A domain declaring functions is accepted only if :numeric-fluents (or :fluents) is declared for functions other than total-cost and :action-costs for total-cost.", "quantifier": "all function dictionaries and requirement sets", "why_tests_cant": "All combinations.", "anchors": ["pddl/_validation.py:Functions._check_total_cost"]}
{"id": "C46", "title": "Operands are kept in order, first of equal ones", "statement": "The operands of And(*ops), Or(*ops) and of numeric =, +, *, -, / are the given operands with directly nested nodes of the same class opened up, in their order, keeping the first of equal ones (And/Or with a single one left return it); OneOf, Imply, the order comparisons and the assignments keep exactly the operands they are given.", "quantifier": "all operand lists, any nesting and repetition", "why_tests_cant": "All lists and nestings; nothing else may be dropped, added or reordered.", "anchors": ["pddl/logic/base.py:BinaryOpMetaclass,_simplify_monotone_op_operands,BinaryOp,OneOf,Imply", "pddl/logic/functions.py:BinaryFunction and subclasses"]}
{"id": "C47", "title": "A parsed condition or metric means what its text says", "statement": "In every state and under every assignment of its variables, a precondition, derived-predicate condition, goal or initial fact obtained by parsing a text holds exactly when the condition written there holds, and a metric has the value of the expression written there: connectives, typed quantifiers, equality of terms, atoms, comparisons and numeric expressions keep their meaning although the library flattens nested nodes, drops repeated operands and rewrites double negations while building them.", "quantifier": "all domain and problem texts that the parsers accept; all states (objects, facts, function values, types) and assignments", "why_tests_cant": "All conditions, nesting depths, states and assignments; the simplifications made while parsing are only right if they preserve meaning everywhere.", "anchors": ["pddl/parser/domain.py:DomainTransformer.gd,gd_not,gd_and,gd_or,gd_imply,gd_quantifiers,gd_comparison,atomic_formula_term,f_exp,f_head", "pddl/parser/problem.py:ProblemTransformer.init_el,gd,gd_comparison,metric_spec,metric_f_exp", "pddl/logic/base.py", "pddl/logic/functions.py"]}
{"id": "C48", "title": "A parsed effect makes the changes its text says", "statement": "In every state and under every assignment of its parameters, the possible outcomes of the effect of a parsed action are exactly those of the effect written in the text: which facts are added and deleted, which function values are updated, by what amount and how many times, under which conditions, for which objects, and which alternatives of oneof can be chosen.", "quantifier": "all domain texts that the parser accepts; all their actions; all states and assignments", "why_tests_cant": "All nestings of and/when/forall/oneof and numeric updates in all states; the set-like treatment of operands is only right if no repetition matters.", "anchors": ["pddl/parser/domain.py:DomainTransformer.emptyor_effect,effect,c_effect,p_effect,cond_effect,num_effect", "pddl/logic/effects.py:When,Forall", "pddl/logic/base.py:And,OneOf,Not", "pddl/logic/functions.py:Assign,Increase,Decrease,ScaleUp,ScaleDown"]}
{"id": "C49", "title": "Formatting a file keeps what it declares", "statement": "If the parser accepts a domain or problem file, then printing the parsed object gives a text that the parser accepts again, and that text declares an equal object (with the same types for constants and objects). So the command line tool can be used as a formatter.", "quantifier": "all domain and problem texts that the parser accepts", "why_tests_cant": "The set of accepted texts is infinite, and the parser accepts several constructs that the printer cannot write; only a proof tells exactly which ones.", "anchors": ["pddl/__main__.py:cli", "pddl/formatter.py:domain_to_string,problem_to_string", "pddl/parser/domain.py:DomainParser.__call__", "pddl/parser/problem.py:ProblemParser.__call__"]}
{"id": "C50", "title": "A parsed domain declares exactly what its text declares", "statement": "After parsing a domain text, the domain's name is the one written; its requirements, types with their parents, constants with their types, predicates with their variables and the variables' types, and functions with their variables are exactly those listed in the text: nothing is lost, invented, merged or attached to the wrong name.", "quantifier": "all domain texts that the parser accepts", "why_tests_cant": "All texts: every mix of typed and untyped groups, repeated names, either-types and section orders.", "anchors": ["pddl/parser/domain.py:DomainTransformer.domain,requirements,types,constants,predicates,functions,atomic_formula_skeleton,atomic_function_skeleton_def,typed_list_name,typed_list_variable", "pddl/parser/typed_list_parser.py"]}
{"id": "C51", "title": "A parsed problem declares exactly what its text declares", "statement": "After parsing a problem text, the problem's name and domain name are the ones written, its requirements are exactly the listed ones, its objects with their types are exactly the listed ones, its initial state consists of exactly the literals and function values listed under :init (with the declared types of the objects), and it has a metric exactly when one is written, with the written direction.", "quantifier": "all problem texts that the parser accepts", "why_tests_cant": "All texts: every mix of typed and untyped groups, repeated names, either-types and section orders.", "anchors": ["pddl/parser/problem.py:ProblemTransformer.problem,problem_domain,requirements,objects,init,init_el,literal_name,basic_function_term,atomic_formula_name,metric_spec"]}
{"id": "C52", "title": "Formatting twice is the same as formatting once", "statement": "Parsing a domain or problem file and printing the result gives a text that is a fixed point: parsing that text and printing again gives exactly the same text, character by character.", "quantifier": "all domain and problem texts that the parser accepts", "why_tests_cant": "All texts: every order of declarations, every nesting of formulas, every spelling of numbers; a formatter run in a commit hook must not keep changing files.", "anchors": ["pddl/formatter.py:domain_to_string,problem_to_string,_sort_and_print_collection", "pddl/parser/domain.py:DomainParser.__call__", "pddl/parser/problem.py:ProblemParser.__call__"]}
{"id": "C53", "title": "Derived predicates have the types written or declared", "statement": "Every (:derived (p ...) ...) of an accepted domain text gives a derived predicate, p is declared in :predicates with the same number of arguments, and each argument has the name written, the types written for it or, when none are written, the types declared for that argument of p; written types are declared types of that argument or direct subtypes of them.", "quantifier": "all domain texts that the parser accepts", "why_tests_cant": "All texts: every mix of typed and untyped arguments, either-types, repeated names and hierarchies.", "anchors": ["pddl/parser/domain.py:DomainTransformer.derived_predicates,_check_subtypes", "pddl/parser/_update_type_tags.py:update_type_tags"]}
{"id": "C54", "title": "Parsing fails only with known kinds of exceptions", "statement": "Whatever the text, parsing a plan returns a plan or raises lark's syntax error or PDDLValidationError; parsing a problem returns a problem or raises lark's syntax error, PDDLParsingError, PDDLMissingRequirementError, PDDLValidationError or ValueError; parsing a domain with a new parser returns a domain, raises one of these, lark's ParseError, TypeError or RuntimeError, or does not return. A domain parser used before can besides raise AssertionError. Nothing else (KeyError, IndexError, AttributeError, NotImplementedError) escapes, and each of the listed outcomes happens for some text.", "quantifier": "all texts, all earlier uses of the parser", "why_tests_cant": "A test can only show that a bad text raises one of them; that no text raises another needs all texts.", "anchors": ["pddl/parser/base.py:BaseParser.__call__", "pddl/parser/domain.py:DomainTransformer", "pddl/parser/problem.py:ProblemTransformer", "pddl/parser/plan.py:PlanTransformer", "pddl/exceptions.py"]}
{"id": "C55", "title": "The command line tool accepts exactly the files that parse and fit together", "statement": "Running `pddl domain [problem [plan]]` ends normally exactly when the domain parses, the problem (if given) parses and agrees with the domain, and the plan (if given) parses and consists of known actions applied to the right number of known objects. It then writes the texts of the three objects in that order. With --quiet it writes nothing and ends the same way. When it fails it has only written the texts of objects that passed their checks, and the exception is one of those the domain parser can raise. Run on its own output it accepts it and writes the same output again.", "quantifier": "all contents of the three files, with or without the optional ones, with or without --quiet", "why_tests_cant": "The outcome depends on three parsers, three printers and two checkers over all texts; tests run a few files.", "anchors": ["pddl/__main__.py: cli", "pddl/__init__.py: parse_domain, parse_problem, parse_plan", "pddl/core.py: Problem.check, Plan.check"]}
{"id": "C56", "title": "Equal objects are interchangeable", "statement": "Objects that compare equal can be used for each other: equal conditions hold in the same states, equal expressions have the same value, equal effects make the same changes; the operators, the quantifiers and instantiation give equal results for equal arguments and raise for both or for neither; equal domains accept the same problems; equal domains and problems accept the same plans; equal problems are accepted by the same domains.", "quantifier": "all formulas, mappings, actions, domains, problems and plans", "why_tests_cant": "Sets and dictionaries merge equal objects silently, so whichever of two equal objects survives must not matter; a test can only compare a few pairs.", "anchors": ["pddl/logic/base.py: __eq__ of the formula classes", "pddl/logic/terms.py: Constant.__eq__, Variable.__eq__", "pddl/core.py: Domain.__eq__, Problem.__eq__, Problem.check, Plan.check", "pddl/action.py: Action.instantiate, Action.__eq__"]}
{"id": "C57", "title": "Instantiating in two steps is the same as in one", "statement": "Replacing terms by a mapping and then by a second mapping gives the formula that the composed mapping gives at once; a mapping of variables that do not occur gives the same formula; instantiating an action with fresh variables and then with terms is the same as instantiating it with the terms.", "quantifier": "all formulas, mappings, actions and terms", "why_tests_cant": "Replacement merges operands that become equal, so the order of merging and replacing matters for all nestings of operators.", "anchors": ["pddl/logic/base.py: instantiate of the formula classes", "pddl/logic/functions.py: instantiate", "pddl/logic/predicates.py: instantiate", "pddl/action.py: Action.instantiate"]}
{"id": "C58", "title": "The parsers accept only texts of the grammar", "statement": "A text that a parser turns into a domain, a problem or a plan is derived from the published grammar: its words, separated by blanks and comments, are derived from the rule of that name.", "quantifier": "all texts, and all earlier uses of the parser object", "why_tests_cant": "The grammar is recursive, and texts that should be rejected cannot be enumerated.", "anchors": ["pddl/parser/grammar.lark", "pddl/parser/base.py: BaseParser.__call__", "pddl/parser/domain.py", "pddl/parser/problem.py", "pddl/parser/plan.py"]}
{"id": "C59", "title": "Texts of the grammar are not syntax errors", "statement": "A text derived from the grammar's rule for domains, problems or plans is not rejected as a syntax error, whatever the parser object parsed before.", "quantifier": "all texts derived from the grammar, and all earlier uses of the parser object", "why_tests_cant": "The grammar is ambiguous in places; the generated LALR tables resolve the conflicts silently, and only a few texts can be tried.", "anchors": ["pddl/parser/grammar.lark", "pddl/parser/domain.py", "pddl/parser/problem.py", "pddl/parser/plan.py"]}
{"id": "C60", "title": "Parsing in several threads leaves sys.tracebacklimit unchanged", "statement": "When several threads call parsers at the same time, then once all calls have ended sys.tracebacklimit is what it was before.", "quantifier": "all numbers of threads, all interleavings of their accesses, all outcomes of the parses", "why_tests_cant": "Interleavings cannot be enumerated by tests, and the outcome depends on the scheduler.", "anchors": ["pddl/parser/base.py: BaseParser._call_parser"]}
{"id": "C61", "title": "Objects can be hashed, copied and pickled in several threads", "statement": "Threads that at the same time hash, copy or pickle objects that refer to each other all succeed, and every hash() returns the hash of the object.", "quantifier": "all object graphs reached by any history, all numbers of threads, all interleavings of their accesses", "why_tests_cant": "Interleavings and object graphs cannot be enumerated; the window for the failure is a few bytecodes wide.", "anchors": ["pddl/helpers/cache_hash.py: _cache_hash, _getstate, _setstate"]}
{"id": "C62", "title": "Declaring more requirements never breaks anything", "statement": "If a domain is accepted, the same domain with further requirement flags is accepted too, whether read from text or built with Domain(...), and it differs in nothing but its requirements; problems that fit the first fit the second, and plans are judged the same.", "quantifier": "all domains, as texts or as constructor arguments, all supersets of their requirements, all problems and plans", "why_tests_cant": "A flag enables code paths everywhere in the parser and the type checker; no finite set of texts covers all combinations of flags and features.", "anchors": ["pddl/parser/domain.py: DomainTransformer", "pddl/requirements.py: _extend_domain_requirements", "pddl/_validation.py: TypeChecker, Types, Functions", "pddl/core.py: Domain.__init__, Problem.check, Plan.check"]}
{"id": "C63", "title": "Negative preconditions, conditional effects, numeric expressions and derived predicates need their flags", "statement": "A domain text that uses a negative precondition, a conditional effect, a numeric condition or effect, or a derived predicate is accepted only if the corresponding requirement is declared or implied.", "quantifier": "all domain texts and all sets of declared requirements", "why_tests_cant": "Which flags the parser looks at for which feature is a statement about all texts; a test that a flag is not needed for one text says nothing about the next.", "anchors": ["pddl/parser/domain.py: DomainTransformer.gd_not, gd_comparison, cond_effect, derived_predicates", "pddl/core.py: Domain.__init__"]}
{"id": "C64", "title": "The definitions of a domain text are read one by one", "statement": "What a domain text says in one action or derived predicate does not change what the others are read as: leaving definitions out, saying one twice or changing their order keeps an accepted text accepted, and the parsed domain has exactly the actions and derived predicates of the definitions that are there.", "quantifier": "all domain texts, and all selections, repetitions and orders of their definitions", "why_tests_cant": "Independence of the definitions speaks about all pairs of texts; the parser keeps state from one definition to the next, and no finite set of texts shows that it never leaks.", "anchors": ["pddl/parser/domain.py: DomainTransformer.action_def, action_parameters, derived_predicates, domain", "pddl/core.py: Domain.__init__"]}
{"id": "C65", "title": "An accepted domain or problem only uses what it declares", "statement": "Every predicate, function, constant and variable used in an accepted domain, and every predicate, function and object used in an accepted problem, is declared, with the right number of arguments.", "quantifier": "all domain and problem texts that are accepted", "why_tests_cant": "Holds or fails for all texts; a test can show that one undeclared symbol is refused, not that all are.", "anchors": ["pddl/parser/domain.py: DomainTransformer.constant, atomic_formula_term, f_head, derived_predicates", "pddl/parser/problem.py: ProblemTransformer.atomic_formula_name, basic_function_term", "pddl/_validation.py: TypeChecker"]}
{"id": "C66", "title": "A plan text is read step by step", "statement": "A plan text is accepted exactly if it is a sequence of groups of names, and the plan has exactly these steps in order; putting plan texts one below the other, and checking or instantiating the result, is the same as doing so one by one.", "quantifier": "all plan texts, all plans, domains and problems", "why_tests_cant": "Speaks about all texts and all ways to cut them; the lexer has state (words, comments) that only a proof for all prefixes covers.", "anchors": ["pddl/parser/plan.py: PlanTransformer", "pddl/core.py: Plan.check, Plan.instantiate"]}
{"id": "C67", "title": "Domains, problems and plans cannot be changed from outside", "statement": "Once made, a domain, problem or plan is not changed by what the program does to the collections it was made from or to the collections its attributes return, nor by making or changing other objects.", "quantifier": "all programs that make containers, domains (by the constructor or by the parser), problems and plans, change containers in place and set the domain of problems, of any length", "why_tests_cant": "Aliasing shows only for particular later uses of a shared container; no finite set of programs excludes all of them.", "anchors": ["pddl/core.py: Domain.__init__, Domain.functions, Domain.types, Problem._parse_requirements, Problem.domain, Plan.__init__", "pddl/helpers/base.py: ensure_set, ensure", "pddl/_validation.py: Types, Functions"]}
{"id": "C68", "title": "Conditions, effects and numbers can be ordered", "statement": "Any two conditions (effects, numbers, function terms) can be compared by <, >, <= and >=; exactly one of a < b, a == b, a > b holds; a > b says b < a, a <= b says a < b or a == b, a >= b says b <= a; < is irreflexive and transitive and cannot tell equal objects apart.", "quantifier": "all pairs and triples of conditions, effects, function terms and numbers, of any nesting", "why_tests_cant": "The order is recursive over nested objects and mixes tuples, sets and derived operators; wrong or missing answers show only for particular nestings.", "anchors": ["pddl/logic/base.py: QuantifiedCondition.__lt__", "pddl/logic/effects.py: When.__lt__, Forall.__lt__", "pddl/logic/functions.py: NumericFunction.__lt__, NumericValue.__lt__", "pddl/logic/predicates.py: Predicate.__lt__"]}
{"id": "C69", "title": "Objects can be made anew from their attributes", "statement": "Calling the constructor of an object with the object's own public attributes (and doing the same for the attributes, down to the terms) succeeds and gives an object equal to the original with the same attributes: terms, conditions, effects, actions, derived predicates, metrics, domains and problems, whether they were made by a program or returned by a parser, and also problems whose domain was assigned later.", "quantifier": "all objects made through the constructors, with any nesting; all texts the parsers accept; all successful domain assignments", "why_tests_cant": "Constructors normalise and validate their arguments; that their results are fixed points of this must hold for every nesting of operators and every set of arguments, including what the parsers make by other routes.", "anchors": ["pddl/core.py: Domain.__init__, Problem.__init__, Problem.domain setter", "pddl/action.py: Action.__init__", "pddl/logic/base.py: BinaryOpMetaclass.__call__, _simplify_monotone_op_operands", "pddl/logic/terms.py: Constant, Variable", "pddl/_validation.py: Types.__init__"]}
{"id": "C70", "title": "Names are only names: consistent renaming changes nothing else", "statement": "If the names chosen by the user (of domains, problems, types, objects, variables, predicates, functions, actions) are replaced consistently, different names by different names, while the words with a meaning in PDDL stay, then: a domain, problem or plan text is accepted exactly when the renamed text is, and fails with the same exception otherwise; the object obtained from the renamed text is the renamed object; the constructors, ==, Action.instantiate, Plan.instantiate, Plan.check, Problem.check and the domain setter commute with the renaming. (Problem.check compares the domain names up to case, so there the renaming must respect case.)", "quantifier": "for every renaming, every text (accepted or not) and every object, constructor argument and operation", "why_tests_cant": "A unit test uses a few fixed names; that no behaviour depends on how something is called (beyond the reserved words) is a statement about all names and all texts", "anchors": ["pddl/parser/domain.py: DomainTransformer", "pddl/parser/problem.py: ProblemTransformer", "pddl/parser/plan.py: PlanTransformer", "pddl/custom_types.py: parse_name, parse_type, parse_function", "pddl/core.py: Domain, Problem, Plan", "pddl/_validation.py: Types, TypeChecker", "pddl/action.py: Action.instantiate"]}
{"id": "C71", "title": "The generated parser reads the grammar: every text gets one answer, from its only tree", "statement": "For each start symbol (domain, problem, plan) and whatever the transformer's callbacks do: parsing ends on every text, with one result. If a text is accepted, it consists of the words of a tree of the grammar (the grammar of the file, with Lark's preference for keywords and for shifting written out), the result is obtained by running the callbacks of that tree once each, parts before wholes and from left to right, and its words have no other tree. Conversely a text that spells the words of a tree (words separated where they could be confused) gets exactly the outcome of those callbacks, value or first exception. Any other text raises an exception, and an exception that is not a syntax error is that of a tree which begins with the words read before it was raised. Every tree is a derivation in the grammar file.", "quantifier": "for every text, every start symbol, every transformer (callbacks with state) and every initial state", "why_tests_cant": "Unit tests run some texts; that the LALR tables with their conflicts and the contextual lexer accept nothing outside the grammar, miss nothing in it, never loop, and call the callbacks in a fixed order is a statement about all texts", "anchors": ["pddl/parser/grammar.lark", "pddl/parser/base.py: BaseParser._create_lark_parser_or_get_from_cache, BaseParser.__call__"]}
{"id": "C72", "title": "The generated parser with the transformers' methods computes what the model of the parsers says", "statement": "Running the parser that Lark generates, with the methods of DomainTransformer, ProblemTransformer or PlanTransformer called at each reduction on the values of the parts, gives the same as the recursive reading of the parenthesised text on which all other parsing theorems rest (parse_domain, parse_problem_from, parse_plan): a text with separated words is accepted by the one if and only if it is accepted by the other, with the same value and the same attributes left in the transformer; for every text that has a tree it ends with exactly the result of that reading, be it a value or an exception; a text that reading rejects is rejected too; and on any text whatever, an exception other than a syntax error is the exception of that reading for a text that begins with the words read so far, so that the exceptions the parsers can raise are the same.", "quantifier": "for every text, every state left in the transformer by earlier parses, and each of the three parsers", "why_tests_cant": "Unit tests compare some texts; that positions of children (args[2], args[1:-1], absent optional parts as None, inlined rules) are used right in every method for every combination of parts is a statement about all texts", "anchors": ["pddl/parser/domain.py: DomainTransformer", "pddl/parser/problem.py: ProblemTransformer", "pddl/parser/plan.py: PlanTransformer", "pddl/parser/typed_list_parser.py: TypedListParser.parse_typed_list", "pddl/parser/grammar.lark"]}
{"id": "C73", "title": "A missing-requirement error names a requirement that is really missing", "statement": "When parsing raises PDDLMissingRequirementError, the requirement it names is one that the text needs (a condition, an effect or the types use a feature which that requirement, or an umbrella of it, allows) and that the text neither declares nor implies; a requirement that is in force is never named; and declaring what the error asks for makes that error go away.", "quantifier": "all domain texts and all problem texts, all sets of declared requirements", "why_tests_cant": "Which requirement is named depends on every feature used anywhere in the text and on the order in which the parser meets them; tests name one feature at a time.", "anchors": ["pddl/exceptions.py: PDDLMissingRequirementError", "pddl/parser/domain.py: DomainTransformer", "pddl/parser/problem.py: ProblemTransformer.goal", "pddl/requirements.py: _extend_domain_requirements"]}
{"id": "C74", "title": "What is printed determines the object", "statement": "Two domains, two problems, two plans or two formulas that are printed as the same text are equal; so nothing that == looks at is lost or merged in printing. For formulas: the texts are the same exactly when the formulas differ at most in what PDDL text does not say.", "quantifier": "all pairs of formulas, domains, problems and plans the library can build and whose names are PDDL names", "why_tests_cant": "A collision needs two objects that no test author would think to compare; one must compare every object with every other one.", "anchors": ["pddl/formatter.py: domain_to_string, problem_to_string, plan_to_string", "pddl/logic/base.py: __str__", "pddl/logic/predicates.py: __str__, __eq__", "pddl/logic/functions.py: __str__, __eq__", "pddl/logic/effects.py: __str__"]}
{"id": "C75", "title": "The representation of an object identifies it", "statement": "Two terms, formulas, effects, derived predicates, metrics, actions or requirements with the same repr() are equal, and equal ones have the same repr(), wherever they are in memory and in whatever order their sets are iterated.", "quantifier": "all objects whose names are names of the language; all addresses of objects and iteration orders of sets", "why_tests_cant": "All pairs of objects of any size: whether some pair of different objects shares a text is a question about all texts, and addresses and hash seeds vary from run to run.", "anchors": ["pddl/logic/terms.py:Constant.__repr__,Variable.__repr__", "pddl/logic/predicates.py:Predicate.__repr__,EqualTo.__repr__,DerivedPredicate.__repr__", "pddl/logic/base.py:BinaryOp.__repr__,UnaryOp.__repr__,QuantifiedCondition.__repr__", "pddl/logic/functions.py:NumericFunction.__repr__,NumericValue,BinaryFunction.__repr__,Metric.__repr__", "pddl/logic/effects.py:When.__repr__,Forall.__repr__", "pddl/action.py:Action.__repr__", "pddl/requirements.py:Requirements.__repr__"]}
{"id": "C76", "title": "The search for cycles takes few iterations", "statement": "find_cycle answers after a number of iterations that is at most quadratic in the number of nodes of the graph, so a Domain with many types is checked quickly.", "quantifier": "all graphs given to find_cycle and all type hierarchies given to Domain", "why_tests_cant": "The number of iterations depends on the shape of the whole graph; the worst shapes are not the ones in tests, and a test on small graphs does not show growth.", "anchors": ["pddl/helpers/base.py:find_cycle", "pddl/_validation.py:Types"]}
{"id": "C77", "title": "The order in which things are listed does not matter", "statement": "Reordering, regrouping or repeating what a domain or a problem lists - the requirements, the types, the constants or objects, the predicates, the functions, the initial facts - does not change what it means: the constructors and the parsers accept the one listing exactly when they accept the other, and return equal objects.", "quantifier": "every domain and problem text and every constructor call, and every reordering, regrouping and repetition of their lists", "why_tests_cant": "There are factorially many orders and groupings of every list; a test fixes one.", "anchors": ["pddl/core.py: Domain.__init__, Problem.__init__", "pddl/parser/domain.py: DomainTransformer", "pddl/parser/problem.py: ProblemTransformer", "pddl/parser/typed_list_parser.py: TypedListParser"]}
{"id": "C78", "title": "What is printed is one expression in balanced parentheses", "statement": "str() of every condition, effect, action, domain and problem is exactly one parenthesised expression: it begins with a parenthesis, the parentheses match, nothing but blanks follows the last one, and no comment hides a part of it; a printed plan is one such expression per line.", "quantifier": "every domain, problem and plan text, and every object made through the constructors", "why_tests_cant": "Whether the parentheses match has to hold for every nesting of conditions, every combination of present and missing sections and every name; tests compare the text of a few objects.", "anchors": ["pddl/core.py: Domain.__str__, Problem.__str__, Plan.__str__", "pddl/action.py: Action.__str__", "pddl/logic/base.py: __str__", "pddl/logic/functions.py: __str__", "pddl/formatter.py: the print helpers"]}
{"id": "C79", "title": "A text that is cut short is not mistaken for a complete one", "statement": "When the text of a domain or problem is cut at any place, what is left is rejected, unless only whitespace and comments were cut off, and then it is read to the same object. Nothing but whitespace and comments can follow an accepted domain or problem. The same of plans. If the writing of a formatted file is interrupted at any point, what is on disk is rejected.", "quantifier": "every accepted text and every place where it is cut; every accepted text and every continuation of it; every parsed object and every point at which the writing of its text is interrupted", "why_tests_cant": "There is one cut for every position of every text; tests do not try them.", "anchors": ["pddl/parser/base.py: BaseParser.__call__", "pddl/parser/grammar.lark", "pddl/core.py: Domain.__str__, Problem.__str__"]}
{"id": "C80", "title": "The constructor of Problem accepts exactly the well-formed problems", "statement": "Problem(...) succeeds exactly when its name is legal, a domain or a legal domain name is given, a domain name or requirements given beside a domain agree with it, every formula of the initial condition is a literal, and the objects, the initial condition and the goal only use types of the domain. The attributes are then the given ones, with the domain's name and requirements, and the goal is trivially true when none is given. Otherwise it raises ValueError or PDDLValidationError.", "quantifier": "all combinations of arguments, with and without a domain", "why_tests_cant": "The condition is about every formula of every initial state, at every depth.", "anchors": ["pddl/core.py: Problem.__init__, Problem.check, _parse_domain_and_domain_name, _parse_requirements", "pddl/logic/base.py: is_literal"]}
{"id": "C81", "title": "A predicate or function called with terms", "statement": "Calling a predicate or function object with terms returns the predicate or function of the same name with exactly these terms. It succeeds exactly when there are as many terms as before and (for functions) each has the type tags of the term it replaces, and (for predicates) no name is given two types; otherwise AssertionError or ValueError is raised. When the object's terms are distinct variables, the call is the same as instantiating them.", "quantifier": "all predicates and functions, all lists of terms", "why_tests_cant": "Quantifies over all terms and arities.", "anchors": ["pddl/logic/predicates.py: Predicate.__call__", "pddl/logic/functions.py: NumericFunction.__call__"]}
{"id": "C82", "title": "The shorthands variables() and constants() build the listed terms", "statement": "variables(s, types) and constants(s, type) return one variable or constant for each word of the text s, in order, with exactly these types; whitespace is irrelevant. They succeed exactly when every word is a legal name and (if there is any word) every type is a legal type name. A metric is accepted exactly with the directions 'minimize' and 'maximize'.", "quantifier": "all texts, all collections of types", "why_tests_cant": "All texts and all kinds of whitespace between the words.", "anchors": ["pddl/logic/helpers.py: variables, constants", "pddl/logic/functions.py: Metric"]}
{"id": "C83", "title": "Equal and reformatted planning tasks have the same solutions", "statement": "If two domains, two problems and two plans are equal (==), the first plan solves the first task from a state exactly when the second solves the second: initial facts and values, the parameters' types, preconditions, effects (conditional, universal, numeric, oneof), derived predicates and goal all have the same meaning. Parsing a domain and a problem file and printing them again (what the formatter does) keeps all solutions and the types of all objects. A task built with the constructors and written to files has the same solutions as the task read from these files, with plans printed and read back as well.", "quantifier": "all domains, problems, plans, states, and ways of carrying out changes; all accepted files", "why_tests_cant": "The solutions of a task are an infinite set; equality and printing involve many layers (sets, order, merging of operands) each of which could change one of them.", "anchors": ["pddl/core.py: Domain, Problem, Plan", "pddl/action.py: Action", "pddl/formatter.py", "pddl/logic/base.py: __eq__"]}
{"id": "C84", "title": "Grounding a plan preserves what it does", "statement": "plan.instantiate(domain) gives ground actions which, executed one after the other, lead from a state to another state exactly when the plan's steps do: each ground action is applicable where the schema is with these constants, and makes the same changes.", "quantifier": "all domains, plans, states, and ways of carrying out changes", "why_tests_cant": "All formulas, mappings and states; the code merges operands that become equal, so the claim is delicate.", "anchors": ["pddl/core.py: Plan.instantiate", "pddl/action.py: Action.instantiate", "pddl/logic/base.py: instantiate"]}
{"id": "C85", "title": "A parsed task has exactly the solutions that its files describe", "statement": "When a domain file, a problem file and a plan file are parsed, the plan solves the parsed task from a state exactly when, according to the texts, the written plan solves the written task: initial facts and values, parameters and their types, preconditions, effects, derived predicates and goal as written. The objects have the types of the parsed declarations exactly when they have those that are written.", "quantifier": "all accepted texts of domains, problems and plans; all states and ways of carrying out changes", "why_tests_cant": "The solutions of a task are an infinite set, and every stage of reading (types, scopes, merging of equal definitions, normalisation) can lose or add one.", "anchors": ["pddl/parser/domain.py: DomainTransformer", "pddl/parser/problem.py: ProblemTransformer", "pddl/parser/plan.py", "pddl/core.py: Domain, Problem, Plan"]}
{"id": "C86", "title": "Which plans can be grounded, and what is raised otherwise", "statement": "plan.instantiate(domain) succeeds exactly when every step names an action of the domain with as many parameters as the step has constants, the action has no conditional or universal effects, and no predicate of its body gets two terms of one name with different types. Otherwise the first step that fails decides: ValueError for an unknown action, a wrong number of constants or clashing types, AttributeError for conditional effects. A plan that passes plan.check and whose domain has no conditional effects can be grounded.", "quantifier": "all actions, domains (from constructors and from texts) and plans of any length", "why_tests_cant": "Whether an atom clashes depends on the combination of constants, parameters and every atom of a body; the order of failures on the whole plan.", "anchors": ["pddl/core.py: Plan.instantiate", "pddl/action.py: Action.instantiate", "pddl/logic/predicates.py: Predicate.instantiate, _check_terms_consistency", "pddl/logic/base.py, functions.py, effects.py"]}
{"id": "C87", "title": "A parsed object is no bigger than its text", "statement": "The domain, problem or plan returned by a parser has at most as many parts (requirements, types, constants, predicates, functions, actions, parameters, conditions, operators, terms, bound variables, steps) as the text has characters: no short text makes a parser build a large object. Its conditions, effects and expressions are nested at least two levels less deep than the parentheses of the text, so methods that recurse over a parsed object recurse no deeper than the text is nested.", "quantifier": "all texts accepted by DomainParser (used before or not), ProblemParser and PlanParser", "why_tests_cant": "A test compares some files; the bound must hold for every text, including the merging and flattening of nested operators.", "anchors": ["pddl/parser/domain.py: DomainTransformer", "pddl/parser/problem.py: ProblemTransformer", "pddl/parser/plan.py", "pddl/logic/base.py: MonotoneOp, _simplify_monotone_op_operands"]}
{"id": "C88", "title": "Parsers used by several threads", "statement": "Threads that each have a DomainParser or ProblemParser of their own get, under every interleaving, exactly the domain, problem or exception they would get alone, and every call finishes once its thread has had enough turns. The same is expected of threads that share one parser; with a lock around the calls it must behave like one parser used for one text after another. At least the name, requirements, types, constants, predicates and functions of a domain returned by a shared parser must be those of its text, and so must everything but the objects of a problem; and a shared ProblemParser must be safe for texts with the same :objects section.", "quantifier": "all texts, numbers of threads and interleavings of their callbacks (for problems: of the accesses of the parser's attribute)", "why_tests_cant": "A test runs one interleaving; a race needs a switch between two particular callbacks, and may corrupt a domain without raising anything.", "anchors": ["pddl/parser/domain.py: DomainTransformer.__init__, types, action_parameters, domain, DomainParser", "pddl/parser/problem.py: ProblemTransformer.objects, atomic_formula_name", "pddl/parser/base.py: BaseParser.__call__"]}
{"id": "C89", "title": "A parser can be used again after an interrupted call", "statement": "When a call of a DomainParser or ProblemParser is interrupted at any point (KeyboardInterrupt, a timeout, an exception raised by a signal handler), possibly several times and mixed with calls that finish, the parser still gives for every later text what a new parser gives: the same exception, or an equal domain or problem.", "quantifier": "all texts, all histories of calls, all points at which each was interrupted", "why_tests_cant": "The point of an interruption cannot be chosen in a test; there is one for each step of each text.", "anchors": ["pddl/parser/domain.py: DomainTransformer.__init__, types, domain", "pddl/parser/problem.py: ProblemTransformer.objects, atomic_formula_name", "pddl/parser/base.py: BaseParser.__call__"]}
{"id": "C90", "title": "The comparison operators agree with each other", "statement": "For terms, and for derived predicates, a > b is the same as b < a, a >= b the same as b <= a, a <= b holds exactly when a < b or a == b, and no comparison raises.", "quantifier": "all pairs and triples of terms and of derived predicates", "why_tests_cant": "The operators are generated from < and ==; whether they agree depends on every pair of names, types and conditions.", "anchors": ["pddl/logic/terms.py:Term.__lt__", "pddl/logic/terms.py:Constant.__eq__", "pddl/logic/predicates.py:DerivedPredicate.__lt__"]}
