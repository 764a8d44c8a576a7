rows = {
"C01": "Names.v; decide the regex by a scanning function, prove `parse_name s = Ok s` iff the spec predicate.",
"C02": "boolean `==` of every class proved an equivalence by nested induction.",
"C03": "`hash` over an abstract record of primitive hashes; induction on formulas; frozenset case by permutation up to equality.",
"C04": "state machine of objects with `__dict__` heap, seeds and operations; invariant: cached value = hash under current seed.",
"C05": "`Sem.v` truth; loop invariant of the flatten/dedup DFS.",
"C06": "same loop; normal-form predicate by induction.",
"C07": "numeric value over Q; expected refuted (x+x); partial for distinct, un-nested operands.",
"C08": "corollaries of C05.",
"C09": "explicit-stack DFS with a measure giving enough fuel; completeness by path induction.",
"C10": "stack invariant: path is a walk; expected: path may have a lead-in before the cycle.",
"C11": "iff with acyclicity; the `:adl` variant is expected to be refuted.",
"C12": "induction on formulas against an occurrence relation.",
"C13": "expected refuted for functions and derived conditions; positive for the rest.",
"C14": "expected refuted.",
"C15": "list induction.",
"C16": "substitution lemma with hygiene hypothesis; capture expected as counterexample.",
"C17": "induction on bodies; When/Forall expected to raise AttributeError.",
"C18": "list induction; type-incorrect plan accepted as counterexample of the stronger reading.",
"C19": "induction over plan; needs body to support instantiation.",
"C20": "state machine; non-atomic setter expected as counterexample.",
"C21": "finite case analysis on membership, for all sets.",
"C22": "expected refuted (`<` is reflexive).",
"C23": "lexicographic order lemmas; derived predicates expected to be refuted.",
"C24": "spec as a recursive function on groups; parser uses indices.",
"C25": "sorting/grouping lemmas then C24.",
"C26": "topological loop: measure + invariant.",
"C27": "scoped occurrence relation.",
"C28": "expected refuted (divergence).",
"C29": "permutation invariance of printing; quantifiers expected to be refuted.",
"C30": "lexer + reader + matcher on printed text.",
"C31": "induction on formulas through lexer, reader, matcher; the converse by a size argument: the constructors never make a formula larger, so a formula that comes back equal was read node by node.",
"C32": "sections of the printed problem, using C25, C31.",
"C33": "sections of the printed domain, using C24-C26, C31, C43.",
"C34": "stateful parser model; expected refuted; fresh/determinate variant proved.",
"C35": "induction over conditions.",
"C36": "transducer lemmas.",
"C37": "expected refuted (`Or()` is false).",
"C38": "decimal printing/reading; metric numbers expected refuted.",
"C39": "state machine; expected refuted.",
"C40": "expected refuted for duplicated parameters.",
"C41": "list induction.",
"C42": "split_ws invariance.",
"C43": "expected refuted for untyped-before-typed and multi-typed; partial for the rest.",
"C44": "expected refuted for functions.",
"C45": "case analysis for all dictionaries.",
"C46": "relational spec of members and first occurrences; the stack loop computes it.",
"C48": "outcomes as collections of elementary changes with multiplicity, defined for token trees and for formulas; induction on the tree. Expected false when an increase or a oneof is written twice in one and, and for ().",
"C49": "composition of C32/C33 with an invariant of parsed objects; expected false for constructs that are read but not written back.",
"C50": "inversion of the parser, section by section, against a specification of what a section lists; expected false for total-cost with variables.",
"C52": "the round trip lemmas of C32/C33 strengthened to keep the printed text of every member; equal sets print alike because every section is sorted. Only for files that survive the first round (C49); for problems, that is whenever the printed text is accepted, because reading back a node with a wrong number of operands fails (`TwiceProblem_facts.v`).",
"C53": "inversion of the parser rule down to the written head and the declaration it was checked against. Expected false for a variable repeated in a head.",
"C54": "every function of the parser model is shown to raise only exceptions of a list, by the structure of the code (Raise_facts, RaiseParse_facts); the raises that are unreachable (a constant in a head, When/Forall in a condition, a separator without a type, an action without a body) are excluded by invariants; a text for each listed outcome. Exceptions for lack of resources (RecursionError, MemoryError) are outside the model.",
"C55": "`Main.v` models `cli` as a program that writes texts and may raise; `C55_success` (iff), `C55_output`, `C55_accepted_only`, `C55_quiet`, `C55_errors` (by C54), `C55_again` (by C49, C52 and the invariance of the checks under re-reading).",
"C56": "congruence of every constructor for the modelled `==` (the deduplication and the flattening respect it), then induction on formulas. Expected false for type checks and for raising: constants are compared by name only.",
"C57": "`instantiate` commutes with the normalisation of operators (`inst_mk_op`): first occurrences of the replaced leaves are those of the replaced first occurrences; induction on formulas. Expected false when one of the steps raises for constants of one name with different types.",
"C58": "the rules and terminals of grammar.lark are copied one to one into a data structure (Spec_Grammar) with a generic derivation relation; a text is spelled by words separated by blanks and comments; induction on the parsed trees.",
"C59": "derivations of Spec_Grammar are turned into trees by inversion and induction on the number of words; on these trees no function of the model reaches its syntax error. Expected false: `(- a b)` and `(= f 3)` run into conflicts of the tables.",
"C60": "each access of the attribute is one step of a thread (Threads); a schedule is a list of thread numbers; invariants over all schedules. Expected false: a second call reads the 0 set by the first.",
"C61": "each access of a __dict__ is one step of a thread whose stack of active hash() calls is explicit (Threads); invariants over all schedules, a measure for termination. Expected false: __getstate__ removes the entry between hasattr and the read.",
"C62": "monotonicity of every check in the set of requirements: by induction on expressions for the parser's callbacks (through the characterisation of C35), by structural induction for the type checker, then through the constructors.",
"C63": "expected false (the checks are commented out, vacuous or absent); then prove exactly which flags are never looked at: two texts that differ only in them have the same outcome, by induction over conditions, effects and sections, and each other flag makes a difference for some text.",
"C64": "expected false because the parameters of the last action are still known when a derived condition is read; then prove that this is the only leak: actions depend on nothing but requirements and constants, derived predicates also on the last action in front of them, and texts whose definitions have the same places give equal domains, by induction over the sequence of definitions with the parser state as invariant.",
"C65": "expected false (only constants and heads of derived predicates are looked up); refute it for predicates, arities, functions, variables and objects of problems; prove it for constants in actions and derived predicates and for heads of derived predicates by induction over conditions and effects.",
"C66": "model of the lexer, the tree reader and PlanTransformer; prove that a line break ends every lexer state and that reading is a homomorphism on balanced token sequences, by induction over the tokens with the stack generalised.",
"C67": "a store of containers with references (Heap.v): constructors copy or keep their arguments as the code does. Expected false (functions dict, plan lists are kept; types, functions and a problem's own requirements are handed out). Prove by invariants over all programs that nothing else changes an object.",
"C68": "< of every class and the operators functools.total_ordering derives (Compare.v). Expected false: conjunctions have no order, sets of variables are ordered by inclusion, so that two objects can each be greater than the other. Prove when comparisons raise, exactly which pairs are unrelated, and that < is a strict order compatible with ==.",
"C69": "Client programs copy_* that read the attributes and call the constructors (Spec_Copy.v). Prove that they return the same value: operands that were simplified once are not changed by simplification, types that were parsed once are parsed to themselves, a problem that passed its checks passes them again. Parsed objects are shown to be made through the constructors.",
"C70": "Renaming of texts (character by character) and of objects in Spec_Rename.v; every model function is shown to commute with the renaming (Rename_facts, RenameText_facts, RenameParse_facts, RenameAll_facts).",
"C73": "Exceptions carry the requirement in the model. Induction over conditions, effects and sections: a raised error names the head of a list of alternatives that the written thing needs (the relation of C35, extended with types) and none of which is in the extended requirements. For problems the goal is judged with no requirements at all, so declaring the named one does not help: proved for every problem text and refuted by an example.",
"C71": "Lark.v models the stack machine, the contextual lexer and the tree builder over tables (LarkTables.v); a checker validates the tables against Spec_Lark.v's grammar (LarkCheck_facts), soundness and completeness of the machine are proved for any tables that pass (LarkLR_facts, LarkSound_facts, LarkStop_facts), then lifted to texts and to trees of the EBNF rules (LarkText_facts, LarkTree_facts). That whatever has been read can be finished rests on a second check (LarkContext.v, LarkFinish_facts, LarkFailed_facts): for each state and rule that can begin there, a production that the rule continues, and words that finish it.",
"C72": "Callbacks.v models each transformer method on the list of its children's values, by position; by induction over the trees of Spec_Lark.v, what a tree is worth (CallTree_facts to CallProblem_facts) is what Parser.v computes from the parenthesised text of its words; no method raises the parser's own exception (CallSyntax_facts); C71 connects trees and texts; conversely, every accepted text has such a tree (AcceptBase_facts to AcceptText_facts). Exceptions on texts without a tree: C71's trees that begin with the words read.",
"C74": "Prop_Distinct.v. Formulas: the tree of tokens of a printed formula (form_sx, rx_form of C31) is shown injective up to same_reading (Spec_Distinct.v) by induction on the formula, with the reserved words kept apart from names; conversely same_reading formulas print alike. Domains, problems and plans: the text is read back to an object equal to both (C33, C32, C30) and == is an equivalence (C02). Refuted for objects that differ in the types of variable occurrences, and for formulas with a predicate and a function of one name or with a number and its text.",
"C51": "the same inversion for the problem parser. The elements of :init are compared with init_says (Spec_Init.v).",
"C47": "meaning of the text as a recursive predicate on token trees; induction on the tree. Expected false for repeated operands of sums and products (C02) and for (). Metrics keep their numbers as texts: `stands_for` (Spec_Metric.v) reads them, and the metric parser is related to that of conditions.",
"C75": "`Repr.v`; a scanner cuts a text at the first comma or closing bracket outside brackets, and every representation is one uncut piece, so the pieces of equal texts are equal; parts printed with str by C74. Expected false: types are left out, numbers are shown by address, sets in iteration order.",
"C76": "Count iterations of the loop of the model (rounds in Spec_Cost.v). At most one successor: a measure that decreases in every iteration gives (n+1)^2. Type hierarchies are such graphs; a line of types listed parents first takes about half of that. In general false: on the complete acyclic graph every path is walked, 2^m iterations (refutation for every m).",
"C77": "False where `==` does not tell two listed things apart: a predicate name declared twice in different ways (the last declaration counts for derived predicates) and two constants of one name with different types given to the constructor (the first is kept and checked). Otherwise: the constructor's checks depend only on membership and on dictionary look-up, the two parser states after the declarations cannot be told apart by the readers of the definitions (congruence lemmas for every reader), so the same definitions are read to the same objects.",
"C78": "A reader that only counts parentheses is the specification. Induction over the expression, section by section; indentation and the removal of empty lines change only white space. False of a constructed domain whose dictionary of functions gives a function a type such as `)`, which no constructor checks (refuted); everything parsed satisfies it without further conditions.",
"C79": "Spec_Cut.v says when a rest adds only whitespace and comments. The lexer is a machine with a pending token, the reader one with a stack: after a prefix either a group is open (rejected), or nothing was read (rejected), or the whole tree was read and every further token would add a second tree. Printed texts: C78. False of plans, whose end is not marked (refuted): a part of a plan text is a syntax error or exactly the first steps. The generated parsers (Lark.v) reject cut texts too (Prop_CutLark.v), also where words touch; that the parser is then as before is refuted: the types read before the cut make the next call fail.",
"C80": "Spec_Made.v defines atoms and literals without the model's tests. C80_accepted_iff is an equivalence; C20_disagreement and C12 give the kinds of errors.",
"C81": "Equivalences by unfolding the constructors; the correspondence with instantiate by induction over the variables. That the types of a predicate's terms are compared is refuted (C81_types_refuted).",
"C82": "Spec_Words.v says what the words of a text are; every text has exactly one list of words (C82_words), the one that str.split() gives. Then C41 for every word.",
"C83": "Spec_Execute.v defines states completed by derived predicates, steps, runs and solutions, for an arbitrary relation that carries out changes; the truth and effect lemmas for equal formulas (C06, C48) lift to runs. With C49 the second part follows; it inherits the conditions of C49.",
"C84": "False when two increases become equal, as (increase (fuel ?x) 1) and (increase (fuel ?y) 1) do for x = y (C84_refuted, for a parsed domain). Proved under the conditions of C16 for condition and effect, which C16_effects_partial extends to effects.",
"C85": "Spec_Task.v defines runs and solutions on the trees of tokens, independently of the library's objects (meaning and effects as in C47 and C48); the theorem compares them with Spec_Execute.v's on the parsed objects. Needs the conditions of C47 and C48 and that no parameter is repeated (C40) and no derived predicate's declaration is ambiguous; false otherwise (C85_refuted).",
"C86": "Spec_Instantiate.v defines the replacement of parameters as a relation and the two obstacles; induction over formulas gives the exact verdict of instantiate. The last sentence is false (C86_refuted): constants of a plan file have no types, so the grounding of an atom that mentions a typed constant of the domain raises ValueError when the step uses that constant.",
"C87": "Spec_Size.v counts parts (types of terms excepted). Induction over the tree of parentheses: every callback returns at most as many parts as its group has tokens; the lexer yields at most one token per character. Spec_Depth.v counts nesting in formulas and in the characters of a text; the same inductions with maxima instead of sums.",
"C88": "Shared.v: a call is a sequence of callbacks, each a function of the transformer's attributes; a schedule is a list of thread numbers. Own parsers: the result of the rest of each call is an invariant of every step. Shared parser: expected false for actions (the attribute with the parameters of the current action is shared), and :types asserts that no call is active; the declarations are proved to be functions of the text in every leaf of the call tree. Problems: each read and write of _objects_by_name is a step; expected false for the objects, which are read back from the attribute; same :objects: the attribute is constant once written.",
"C89": "Shared.v: a call is a sequence of steps on the parser's attributes; an interrupted one stops after any number of them. Problems: the table of objects always maps legal names to constants of that name, and == does not see its types. Domains: expected false after :types (the attribute is only reset at the end); proved when the interrupted texts have no :types, and that the parser then rejects every text with :types.",
}
