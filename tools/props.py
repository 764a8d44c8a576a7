#!/usr/bin/env python3
"""Generates /verif/properties.jsonl (the source of truth for the English properties)."""
import json, os
P = []
def p(id, title, statement, quantifier, why, *anchors):
    P.append(dict(id=id, title=title, statement=statement, quantifier=quantifier,
                  why_tests_cant=why, anchors=list(anchors)))

p("C01", "Names are exactly the non-keyword PDDL identifiers",
  "parse_name accepts a string iff it is a letter followed by letters, digits, '-' or '_' and is not a PDDL keyword; parse_type additionally accepts 'object' and parse_function additionally accepts 'total-cost'. An accepted name equals its input, a rejected keyword raises PDDLValidationError, any other rejected string raises ValueError.",
  "every string", "There are infinitely many strings; a test enumerates a few good and bad ones.",
  "pddl/custom_types.py:name,parse_name,parse_type,parse_function,_is_a_keyword", "pddl/helpers/base.py:RegexConstrainedString", "pddl/parser/symbols.py:ALL_SYMBOLS")
p("C02", "== is an equivalence relation on terms, formulas, effects, actions, domains, problems and plans",
  "For all objects built with the public constructors, a == a; a == b implies b == a; a == b and b == c imply a == c.",
  "all terms, formulas, functions, effects, actions, domains, problems, plans of any depth",
  "Relational laws over an infinite recursive class of objects.",
  "pddl/logic/terms.py:__eq__", "pddl/logic/base.py:__eq__", "pddl/logic/predicates.py:__eq__", "pddl/logic/functions.py:__eq__", "pddl/logic/effects.py:__eq__", "pddl/action.py:__eq__", "pddl/core.py:__eq__")
p("C03", "Equal objects have equal hashes",
  "If a == b then hash(a) == hash(b), for every choice of the runtime's string/number/tuple/frozenset hash functions; so sets and dicts keyed by these objects never keep two equal keys.",
  "all pairs of hashable objects (terms, formulas, functions, effects, actions) and all hash seeds",
  "Quantifies over all pairs of objects and all PYTHONHASHSEED values.",
  "pddl/logic/terms.py:__hash__", "pddl/logic/base.py:__hash__", "pddl/logic/predicates.py:__hash__", "pddl/logic/functions.py:__hash__", "pddl/logic/effects.py:__hash__", "pddl/action.py:__hash__")
p("C04", "The memoised hash is never stale",
  "For an object of a class decorated with cache_hash, after any history of hash() calls, pickling, unpickling in an interpreter with a different hash seed, and shallow copies, hash(obj) returns what the undecorated __hash__ would return in the current interpreter.",
  "all histories of hash / getstate / setstate / copy operations and all seed changes",
  "A property of all operation histories across interpreters with different seeds.",
  "pddl/helpers/cache_hash.py:_cache_hash,_getstate,_setstate,cache_hash")
p("C05", "Building And/Or never changes the meaning",
  "And(*ops) is true exactly when all ops are true and Or(*ops) exactly when at least one is, in every state, for every interpretation of predicates, functions and quantifiers, although the constructor deduplicates, flattens and may return an operand itself.",
  "all operand lists (any length, nesting, repetition) and all interpretations", "Semantic equivalence over all interpretations and all nested formulas.",
  "pddl/logic/base.py:BinaryOpMetaclass,_simplify_monotone_op_operands,And,Or")
p("C06", "And/Or objects are always in normal form and construction is idempotent",
  "Every formula built through the constructors contains only And/Or nodes without directly nested nodes of the same kind, without two equal operands and never with exactly one operand; re-applying the constructor to the operands of such a node returns an equal node.",
  "all formulas reachable through the constructors, at every depth", "An invariant of every reachable object.",
  "pddl/logic/base.py:BinaryOpMetaclass,_simplify_monotone_op_operands")
p("C07", "Arithmetic constructors preserve the numeric value",
  "Plus, Times, Minus and Divide applied to operands denote the sum, product, difference and quotient of the operands' values.",
  "all operand lists and all assignments of numeric fluents", "Semantic equality over all fluent assignments.",
  "pddl/logic/functions.py:Plus,Minus,Times,Divide,EqualTo", "pddl/logic/base.py:BinaryOpMetaclass,_simplify_monotone_op_operands")
p("C08", "Operator overloads mean what they look like",
  "~f, f & g, f | g and f >> g denote negation, conjunction, disjunction and implication in every state.",
  "all formulas f, g and all interpretations", "Semantic equality over all interpretations.",
  "pddl/logic/base.py:Formula.__invert__,__and__,__or__,__rshift__")
p("C09", "find_cycle terminates and returns None exactly on acyclic graphs",
  "For every finite adjacency dictionary (also with neighbours that are not keys), find_cycle returns; it returns None iff no node lies on a cycle.",
  "all finite directed graphs", "Termination and completeness over all graphs.",
  "pddl/helpers/base.py:find_cycle")
p("C10", "The path reported by find_cycle witnesses a cycle",
  "When find_cycle returns a path, consecutive nodes are edges of the graph and the last node has an edge back to a node of the path, so a suffix of it is a cycle.",
  "all finite directed graphs", "Soundness over all graphs.",
  "pddl/helpers/base.py:find_cycle")
p("C11", "A type hierarchy is accepted iff it is well formed",
  "A domain's types dictionary is accepted iff every name is a legal type name and (it is empty, or: no supertypes are used without :typing, 'object' has no supertype, and the hierarchy is acyclic). In particular requirements implying :typing should allow hierarchies.",
  "all types dictionaries and requirement sets", "Acyclicity and requirement closure over all dictionaries.",
  "pddl/_validation.py:Types,_check_types_dictionary", "pddl/requirements.py:_extend_domain_requirements")
p("C12", "Type checking accepts exactly the well-typed objects",
  "check_type succeeds on a formula, effect or action iff every term occurring anywhere in it (including quantified variables) uses only declared types, and uses no type at all unless :typing is declared or implied; otherwise it raises PDDLValidationError.",
  "all formulas/effects/actions of any depth, all type sets, all requirement sets", "Completeness of a recursive traversal over all shapes.",
  "pddl/_validation.py:TypeChecker.check_type")
p("C13", "An accepted domain only mentions declared types",
  "If Domain(...) succeeds, then every type mentioned by its constants, predicates, functions, derived predicates and actions is declared.",
  "all accepted domains", "Invariant of all accepted inputs.",
  "pddl/core.py:Domain._check_consistency,_check_types_in_derived_predicates", "pddl/_validation.py:_check_types_in_has_terms_objects,_find_inconsistencies_in_typed_terms")
p("C14", "Precondition and effect are optional",
  "An Action may be built without precondition or effect (both default to None), and a well-typed domain containing such an action is accepted.",
  "all domains with well-typed actions", "Acceptance over all domains.",
  "pddl/action.py:Action.__init__", "pddl/_validation.py:TypeChecker.check_type", "pddl/core.py:Domain._check_consistency")
p("C15", "Atoms have name-consistent types",
  "Predicate(name, *terms) and EqualTo(l, r) succeed iff the name is legal and any two terms with the same name carry the same set of type tags; the built object keeps name and terms unchanged and in order.",
  "all term sequences", "Pairwise property over sequences of any length.",
  "pddl/logic/predicates.py:_check_terms_consistency,Predicate.__init__,EqualTo.__init__")
p("C16", "Instantiation is semantic substitution",
  "The truth of f.instantiate(mapping) in a state equals the truth of f in the state where each mapped variable is bound to the denotation of its image; nothing else changes.",
  "all conditions, all mappings, all interpretations", "Substitution lemma over all formulas and interpretations.",
  "pddl/logic/base.py:instantiate", "pddl/logic/predicates.py:instantiate", "pddl/logic/functions.py:instantiate")
p("C17", "Grounding an action grounds its whole body",
  "action.instantiate(terms) raises ValueError iff the number of terms differs from the number of parameters (for actions whose body supports instantiation); on success the parameters are the given terms, the name is unchanged, and no parameter variable occurs in the instantiated precondition or effect outside quantifier binders.",
  "all actions and all ground term lists", "Recursive traversal over all bodies.",
  "pddl/action.py:Action.instantiate", "pddl/logic/effects.py:When,Forall")
p("C18", "Plan.check accepts exactly the plans whose steps exist, have the right arity and use known objects",
  "plan.check(domain, problem) succeeds iff for every step the action name is defined in the domain, the number of parameters equals the schema's, and every parameter is a problem object or a domain constant; otherwise it raises PDDLValidationError. The verdict does not depend on set iteration order.",
  "all plans (any length), domains, problems, iteration orders", "Quantifies over all plans and all hash seeds.",
  "pddl/core.py:Plan.check")
p("C19", "A checked plan can be instantiated",
  "If plan.check(domain, problem) succeeds then plan.instantiate(domain) succeeds and yields one ground action per step, in order, with the step's name and parameters.",
  "all plans, domains, problems", "Relates two traversals over all plans.",
  "pddl/core.py:Plan.check,Plan.instantiate", "pddl/action.py:Action.instantiate")
p("C20", "A problem stays consistent with its domain",
  "After construction and any history of successful domain assignments, problem.domain_name and problem.requirements are those of the attached domain and the problem type-checks against it; a rejected assignment leaves the problem unchanged.",
  "all histories of domain assignments and checks", "Invariant over operation histories including failures.",
  "pddl/core.py:Problem.__init__,Problem.domain,Problem.check,_parse_domain_and_domain_name,_parse_requirements")
p("C21", "Requirement implication is a closure",
  "The extended requirement set contains the declared ones, exactly the ones implied by :adl, :quantified-preconditions and :fluents, is monotone and is idempotent.",
  "all requirement sets", "Closure laws over all subsets.",
  "pddl/requirements.py:_extend_domain_requirements,Requirements")
p("C22", "Requirements are totally ordered",
  "The comparison operators on Requirements form a strict total order (irreflexive, transitive, trichotomous) and >= / <= agree with it.",
  "all pairs/triples of requirements", "Order laws over all tuples.",
  "pddl/requirements.py:Requirements.__lt__")
p("C23", "Terms and predicates are totally ordered compatibly with ==",
  "For any two terms or predicates exactly one of a < b, a == b, b < a holds and < is transitive, so sorted() gives the same list for every iteration order of a set.",
  "all terms/predicates of any arity; all set iteration orders", "Order laws over all triples and all hash seeds.",
  "pddl/logic/terms.py:Term.__lt__", "pddl/logic/predicates.py:Predicate.__lt__", "pddl/logic/predicates.py:DerivedPredicate.__lt__")
p("C24", "Typed lists assign to each name exactly the type that follows it",
  "Parsing 'x1..xn - t y1..ym - u z1..zk' yields the items in order, each with the type tags of the first separator after it and no tags after the last separator; names must be distinct for name lists, and repeated variables must repeat the same tags; otherwise a ValueError is raised.",
  "all token lists produced by the grammar", "Lists of any length and any number of groups.",
  "pddl/parser/typed_list_parser.py:TypedListParser")
p("C25", "Printing and re-parsing typed constants is the identity",
  "The token list printed for a set of constants, parsed again as a typed list, gives the same name-to-type dictionary.",
  "all sets of constants and all iteration orders", "Round trip over all sets and hash seeds.",
  "pddl/formatter.py:print_constants,print_typed_lists", "pddl/parser/typed_list_parser.py:TypedListParser")
p("C26", "The :types section lists every type once, parents first, and never fails on accepted hierarchies",
  "For an acyclic types dictionary the formatter never raises 'Cycle in types'; every type is listed exactly once under its parent (roots under object) and the line of a parent precedes the lines of its children.",
  "all acyclic type dictionaries", "Termination and topological order over all hierarchies.",
  "pddl/formatter.py:print_types_or_functions_with_parents,print_typed_lists")
p("C27", "Type-tag propagation respects scoping",
  "In a derived predicate, after parsing, every free occurrence of a variable of the head carries the head's type tags, every bound occurrence carries the tags of its innermost binder, and nothing but type tags of variables changes.",
  "all conditions of any depth", "Scoping over arbitrarily nested quantifiers.",
  "pddl/parser/_update_type_tags.py:update_type_tags", "pddl/parser/domain.py:derived_predicates")
p("C28", "Subtype checks terminate with the right verdict",
  "For every acyclic hierarchy, checking derived-predicate argument types against the predicate's declared types terminates, and succeeds iff each left type is a descendant-or-self of one of the right types.",
  "all hierarchies and type sets", "Termination over all inputs.",
  "pddl/parser/domain.py:_check_subtypes")
p("C29", "Equal objects print identically",
  "If two domains, problems or formulas are ==, their str() are identical, whatever the hash seed.",
  "all equal pairs and all set iteration orders", "Quantifies over hash seeds.",
  "pddl/logic/base.py:QuantifiedCondition.__str__", "pddl/formatter.py", "pddl/core.py:__str__")
p("C30", "Plans survive printing and parsing",
  "Parsing str(plan) yields a plan equal to the original.",
  "all plans with legal names, any length", "Round trip over all plans.",
  "pddl/core.py:Plan.__str__", "pddl/parser/plan.py:PlanTransformer", "pddl/parser/grammar.lark")
p("C31", "Conditions and effects survive printing and parsing",
  "Parsing the text of a precondition, goal or effect in a context with the same constants, parameters and requirements yields an equal formula.",
  "all conditions and effects of any depth", "Round trip over an infinite recursive class.",
  "pddl/logic/base.py:__str__", "pddl/logic/predicates.py:__str__", "pddl/logic/functions.py:__str__", "pddl/parser/domain.py:gd,effect,c_effect,p_effect,cond_effect,f_exp", "pddl/parser/grammar.lark")
p("C32", "Problems survive printing and parsing",
  "Parsing str(problem) yields a problem equal to the original.",
  "all problems", "Round trip over all problems.",
  "pddl/core.py:Problem.__str__", "pddl/parser/problem.py:ProblemTransformer", "pddl/formatter.py")
p("C33", "Domains survive printing and parsing",
  "Parsing str(domain) yields a domain equal to the original.",
  "all domains", "Round trip over all domains.",
  "pddl/core.py:Domain.__str__", "pddl/parser/domain.py:DomainTransformer", "pddl/formatter.py")
p("C34", "A parser object can be reused",
  "The result of calling a DomainParser on a text depends only on that text, not on what the same parser object parsed (or failed to parse) before.",
  "all histories of earlier calls, including failed ones", "Quantifies over all call histories.",
  "pddl/parser/domain.py:DomainTransformer.__init__,types,constants,predicates,action_parameters,domain", "pddl/parser/base.py:BaseParser")
p("C35", "Language features require their requirement flags",
  "The domain parser accepts a condition using or/imply, forall/exists, = between terms, or oneof only if the corresponding requirement is declared or implied, and otherwise raises PDDLMissingRequirementError; a problem's goal is judged by the requirements the problem declares.",
  "all conditions and requirement sets", "Quantifies over all nested conditions.",
  "pddl/parser/domain.py:gd_or,gd_imply,gd_quantifiers,atomic_formula_term,c_effect", "pddl/parser/problem.py:gd")
p("C36", "Layout and comments are irrelevant",
  "Inserting or removing whitespace between tokens, and comments up to end of line, does not change the result of parsing.",
  "all texts and all insertion points between tokens", "Quantifies over all texts and positions.",
  "pddl/parser/grammar.lark:%ignore,COMMENT,NAME,NUMBER")
p("C37", "An empty precondition is trivially true",
  "An action written with ':precondition ()' is applicable in every state.",
  "all actions with an empty precondition, all states", "Semantic claim over all states.",
  "pddl/parser/domain.py:emptyor_pregd,emptyor_effect", "pddl/logic/base.py:ensure_formula")
p("C38", "Numbers keep their value through parsing",
  "A number written in a precondition, effect, init or metric is parsed to the NumericValue with that numeric value.",
  "all numerals", "Infinitely many numerals.",
  "pddl/parser/domain.py:num_literal,f_exp", "pddl/parser/problem.py:metric_f_exp,init_el", "pddl/parser/grammar.lark:NUMBER")
p("C39", "Parsing leaves sys.tracebacklimit unchanged",
  "After any sequence of successful and failed parser calls, sys.tracebacklimit is what it was before.",
  "all histories of parser calls with successes and failures and all initial values", "Quantifies over call histories.",
  "pddl/parser/base.py:BaseParser._call_parser")
p("C40", "Action parameters are kept one-to-one",
  "A parsed action has exactly the parameters written in its :parameters list, in order, with their types, and every occurrence of a parameter in the body is that parameter.",
  "all parameter lists", "Lists of any length.",
  "pddl/parser/domain.py:action_parameters,_constant_or_variable,typed_list_variable")
p("C41", "Type tags of terms are duplicate-free legal names",
  "Variable(name, tags) succeeds iff the name is legal, the tags (when given as a list) contain no duplicates and all are legal type names; the type_tags are then exactly the given ones. Constant has at most one tag and type_tag returns it.",
  "all names and tag collections", "All sequences.",
  "pddl/logic/terms.py:Term.__init__,Constant,Variable", "pddl/helpers/base.py:check_no_duplicates")
p("C42", "Formatting only touches layout",
  "Indenting and removing empty lines of the printed domain or problem changes neither the tokens nor their order.",
  "all printed bodies", "All strings.",
  "pddl/formatter.py:remove_empty_lines", "pddl/core.py:__str__")
p("C43", "Typed variable lists survive printing and parsing",
  "The printed form of a list of typed variables (action parameters, predicate arguments, quantified variables) parses back to the same variables with the same types.",
  "all variable lists", "Lists of any length and mixes of typed/untyped variables.",
  "pddl/helpers/base.py:_typed_parameters", "pddl/formatter.py:print_predicates_with_types,print_function_skeleton", "pddl/logic/base.py:QuantifiedCondition.__str__", "pddl/parser/domain.py:typed_list_variable")
p("C44", "Errors in typed lists are reported as PDDLParsingError",
  "A typed list with duplicate or inconsistent items (types, constants, objects, parameters, functions) makes the parser raise PDDLParsingError.",
  "all malformed typed lists", "All lists.",
  "pddl/parser/domain.py:typed_list_name,typed_list_variable,f_typed_list_atomic_function_skeleton,_raise_typed_list_parsing_error")
p("C45", "total-cost and numeric fluents require their requirements",
  "A domain declaring functions is accepted only if :numeric-fluents (or :fluents) is declared for functions other than total-cost and :action-costs for total-cost.",
  "all function dictionaries and requirement sets", "All combinations.",
  "pddl/_validation.py:Functions._check_total_cost")
with open("/verif/properties.jsonl", "w") as f:
    for x in P:
        f.write(json.dumps(x) + "\n")
print(len(P))
