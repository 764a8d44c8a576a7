# A machine-checked model of the `pddl` Python library

The library (source: `/repo/pddl`, read as text, never run) builds PDDL domains, problems
and plans as Python objects, validates them, prints them and parses them.  This directory
holds a Coq 8.16.1 model of it and theorems about that model.

## 1. How the model is built

* **Shallow model.**  Each Python function is a Gallina function with the same branches in
  the same order; each carries a comment citing file and lines.  Exceptions are values:
  `res A := Ok a | Err e`, where `e` names the Python exception class.
* **Objects** are records / inductive values.  `==` is a boolean function written after the
  class's `__eq__`; `hash` is a function over an arbitrary record of primitive hashes
  (strings, numbers, tuples, classes, frozensets); `str` is a function to Coq strings.
* **Sets and dicts** are lists in iteration order (a dict is an association list in insertion
  order).  Set equality is mutual inclusion under `==`.  A statement about "any hash seed"
  quantifies over the order of these lists.
* **State** (parser objects, problems with a mutable domain, memoised hashes,
  `sys.tracebacklimit`) is threaded explicitly; a failing call returns the state it leaves
  behind as well.
* **Parsing** is modelled as lexer (a character transducer) -> token list -> s-expressions ->
  grammar matching + the transformer callbacks.
* **Specifications** (`Spec*.v`, `Sem.v`) are small and do not use the model's helpers: truth
  of conditions in a state, value of numeric expressions over Q, graph cycles, well-typedness.

### Files (`rocq/theories/`)

| file | what |
|---|---|
| `Py.v` | Python building blocks: exceptions, order on strings, sets/dicts as lists, sorting, joins, whitespace |
| `Names.v` | `custom_types.py`, `parser/symbols.py`, `RegexConstrainedString` |
| `Req.v`, `Reqs.v` | `requirements.py` |
| `Logic.v` | `logic/terms.py`, `predicates.py`, `base.py`, `functions.py`, `effects.py`, `helpers.py` |
| `Validation.v` | `_validation.py`, `action.py`, `helpers/base.py:find_cycle` |
| `Core.v` | `core.py` (domains, problems, plans) |
| `Show.v` | every `__str__` and `formatter.py` |
| `Repr.v` | every `__repr__` |
| `Lexer.v`, `TypedList.v`, `UpdateTags.v`, `Parser.v` | `parser/*` and `grammar.lark` |
| `Lark.v`, `LarkTables.v` | the LALR(1) parser that Lark builds from `grammar.lark` (`parser/base.py:30-40`): productions, tables, contextual lexer, stack machine, tree builder. `LarkTables.v` is written by `tools/lalr_coq.py`; `LarkCert.v` and `LarkContext.v` (same tool) help to check it against the grammar |
| `Callbacks.v` | the methods of `DomainTransformer`, `ProblemTransformer` and `PlanTransformer` (`parser/domain.py`, `problem.py`, `plan.py`) on the positional values of their children, as the generated parser calls them; C72 relates them to `Parser.v` |
| `CacheHash.v`, `Traceback.v` | `helpers/cache_hash.py`, `parser/base.py` |
| `Main.v` | `__main__.py:cli` over the contents of the files |
| `Threads.v` | `helpers/cache_hash.py` and `parser/base.py` run by several threads, one access at a time |
| `Stopped.v` | `parser/base.py`, calls stopped by an exception from outside |
| `Shared.v` | `parser/domain.py` and `parser/problem.py` run by several threads, with one parser or one each; domains one callback at a time, problems one access of the attribute at a time; calls interrupted at any step |
| `Heap.v` | `core.py` with references: which containers the constructors copy, keep and hand out |
| `Compare.v` | `__lt__` of formulas, effects and numbers, and the operators `functools.total_ordering` derives |
| `TermCompare.v` | `>`, `<=`, `>=` of terms and derived predicates (`logic/terms.py`, `logic/predicates.py`) |
| `Sem.v`, `Spec.v`, `Built.v`, `Spec_*.v` | independent specifications: truth of conditions, value of numeric expressions, graph cycles, well-typedness, objects built through the API, grammar of typed lists, layout, printable objects, ... |
| `*_facts.v` | lemmas and proofs |
| `Prop_*.v` | the property theorems, each with `Print Assumptions` and an example that meets its hypotheses |

### Checks of the model against the source (`tools/`)

* `lalr.py`, `lalr_check.py`: an LALR(1) table generator with Lark's shift-over-reduce rule, fed
  with `grammar.lark`; compared with the grammar functions of `Parser.v` on generated texts.
  This is how the conflicts (binary `-`, `=` followed by a name) were found.
* `lalr_coq.py`: writes the tables of `LarkTables.v`.  The tool is not trusted to read the grammar
  right: that the tables read exactly the grammar of `Spec_Lark.v` is proved (C71).
* The fixture domains and problems of `/repo/tests` were run through the Coq model with
  `vm_compute` to see that it accepts what the repository's own tests accept.
* `mutate.py`: applies a wrong edit to the model in a scratch copy, rebuilds, and finds which
  property theorems no longer hold; results are in `seeded/LOG.jsonl`.

## 2. Trusted base

* Coq 8.16.1's kernel (and `coqchk`).
* `Print Assumptions` is printed under every property theorem; every one reports
  `Closed under the global context` (no axioms, no library beyond Coq's stdlib).
* `coqchk` over the whole library lists `Coq.ssr.ssrunder.Under_rel.Over_rel`,
  `.Under_rel_from_rel`, `.over_rel`, `.over_rel_done`, `.Under_rel`, `.Under_relE` and
  `.under_rel_done`.  They are the fields of a module type in Coq's standard library, which some
  standard library file used here loads (`Lia`).  No theorem depends on them.
* The correspondence between the Python source and the model, by reading.
* Behaviour of CPython builtins (dict order, `sorted` stable and using `<`, `str` methods,
  frozenset hash independent of order, enum lookups) and of Lark 1.1 (contextual LALR lexer,
  inline transformer, `maybe_placeholders=True`, shift preferred in conflicts) is written into
  the model from their documentation.

### Simplifications (each also noted at the definition)

* Strings are sequences of 8-bit characters (Latin-1); Python strings are Unicode.
* Numbers are integers, or decimals `m / 10^e` standing for floats that print positionally;
  rounding, `inf`, `nan`, scientific notation and Python's limit on the
  number of digits of an `int` are not modelled.  A metric number read by the
  parser is a string, and the model has strings as numeric values for that reason.
* Error *messages* are not modelled, only exception classes, and for `PDDLMissingRequirementError` the requirement it names.
* The lexer model takes the longest word, so a keyword glued to a name where Lark's contextual
  lexer would accept only the keyword (`(eithera b)`, `(domainfoo)`) is rejected by the model;
  C72_touching_words says that Lark gives for it what the model gives with blanks in between.
  Everything else accepted by the grammar is accepted by the model and vice versa (C71, C72).
* Where a text has several errors, Parser.v reports one of them, not always the one Lark
  would meet first: it reads the whole text before it builds anything. The one Lark meets is the
  one Parser.v reports for some text with the same beginning (C72_domain_exception etc.).
  For the same reason a syntax error leaves the attributes of a parser of Parser.v as they were,
  while Lark's may already have been changed by the callbacks that ran before (C79_state_refuted).
  C34_partial therefore speaks of all attributes, not of histories of calls.
* For domains `Shared.v` lets threads switch between callbacks, not inside one, and the callbacks of one section
  or of one action body count as one. Every schedule of the model is one of the code (so the refutations of C88
  stand); a call with a parser of its own reads no shared attribute, so finer switching changes nothing there.
* `DerivedPredicate` and `Metric` are records next to formulas, so they cannot occur nested
  inside other formulas (the API does not forbid it; neither parser produces it).
* Subclassing library classes from outside, mutation of private attributes, and non-library
  values passed where a formula is expected are outside the model.
* Not modelled: `__main__.py`'s click plumbing, file reading, `__init__` path
  handling, `_get_current_path`.

## 3. Properties

Status words: *proved*; *refuted* means the English property is false of this code and a
theorem `..._refuted` exhibits the failing input, next to the strongest true variant, named
`..._partial` when it is weaker than the property. `MANIFEST.json` has the exact theorem names.

* **C01 Names are exactly the non-keyword PDDL identifiers.** Names.v; decide the regex by a scanning function, prove `parse_name s = Ok s` iff the spec predicate.
* **C02 == is an equivalence relation on terms, formulas, effects, actions, domains, problems and plans.** boolean `==` of every class proved an equivalence by nested induction.
* **C03 Equal objects have equal hashes.** `hash` over an abstract record of primitive hashes; induction on formulas; frozenset case by permutation up to equality.
* **C04 The memoised hash is never stale.** state machine of objects with `__dict__` heap, seeds and operations; invariant: cached value = hash under current seed.
* **C05 Building And/Or never changes the meaning.** `Sem.v` truth; loop invariant of the flatten/dedup DFS.
* **C06 And/Or objects are always in normal form and construction is idempotent.** same loop; normal-form predicate by induction.
* **C07 Arithmetic constructors preserve the numeric value.** numeric value over Q; expected refuted (x+x); partial for distinct, un-nested operands. C07_sum_exact, C07_product_exact: for all operands, what is lost is exactly the operands that occur again (Spec_Repeats.v); C07_difference_exact, C07_quotient_exact: the value of all differences and quotients.
* **C08 Operator overloads mean what they look like.** corollaries of C05.
* **C09 find_cycle terminates and returns None exactly on acyclic graphs.** explicit-stack DFS with a measure giving enough fuel; completeness by path induction.
* **C10 The path reported by find_cycle witnesses a cycle.** stack invariant: path is a walk; expected: path may have a lead-in before the cycle.
* **C11 A type hierarchy is accepted iff it is well formed.** iff with acyclicity; the `:adl` variant is expected to be refuted.
* **C12 Type checking accepts exactly the well-typed objects.** induction on formulas against an occurrence relation.
* **C13 An accepted domain only mentions declared types.** expected refuted for functions and derived conditions; positive for the rest.
* **C14 Precondition and effect are optional.** expected refuted. Texts: Prop_Bodies.v.
* **C15 Atoms have name-consistent types.** list induction.
* **C16 Instantiation is semantic substitution.** substitution lemma with hygiene hypothesis; capture expected as counterexample.
* **C17 Grounding an action grounds its whole body.** induction on bodies; When/Forall expected to raise AttributeError.
* **C18 Plan.check accepts exactly the plans whose steps exist, have the right arity and use known objects.** list induction; type-incorrect plan accepted as counterexample of the stronger reading. Domains with several actions of one name: Prop_PlanOrder.v, for every order of the set of actions.
* **C19 A checked plan can be instantiated.** induction over plan; needs body to support instantiation.
* **C20 A problem stays consistent with its domain.** state machine; non-atomic setter expected as counterexample. C20_assign_exact, C20_later_assignments, C20_undo and C20_histories (Prop_Assign.v) range over all histories of accepted and rejected assignments.
* **C21 Requirement implication is a closure.** finite case analysis on membership, for all sets.
* **C22 Requirements are totally ordered.** expected refuted (`<` is reflexive). C22_exact says when each of the four comparisons is true (`<` is `<=`, `>=` is `>`); C22_sorted: sorted() of a set of requirements is right nevertheless (Prop_Ranked.v).
* **C23 Terms and predicates are totally ordered compatibly with ==.** lexicographic order lemmas; derived predicates expected to be refuted. C23_terms_exact: two terms are compared as asked exactly if they are not constants of one name with different types, and `<` is transitive always; C23_sorted_terms: sorted() of a set of terms never depends on its iteration order; C23_derived_exact: what `<` of derived predicates returns or raises (Prop_Ranked.v).
* **C24 Typed lists assign to each name exactly the type that follows it.** spec as a recursive function on groups; parser uses indices.
* **C25 Printing and re-parsing typed constants is the identity.** sorting/grouping lemmas then C24.
* **C26 The :types section lists every type once, parents first, and never fails on accepted hierarchies.** topological loop: measure + invariant.
* **C27 Type-tag propagation respects scoping.** scoped occurrence relation.
* **C28 Subtype checks terminate with the right verdict.** expected refuted (divergence).
* **C29 Equal objects print identically.** permutation invariance of printing; quantifiers expected to be refuted.
* **C30 Plans survive printing and parsing.** lexer + reader + matcher on printed text.
* **C31 Conditions and effects survive printing and parsing.** induction on formulas through lexer, reader, matcher; the converse by a size argument: the constructors never make a formula larger, so a formula that comes back equal was read node by node.
* **C32 Problems survive printing and parsing.** sections of the printed problem, using C25, C31.
* **C33 Domains survive printing and parsing.** sections of the printed domain, using C24-C26, C31, C43.
* **C34 A parser object can be reused.** stateful parser model; expected refuted; fresh/determinate variant proved.
* **C35 Language features require their requirement flags.** induction over conditions.
* **C36 Layout and comments are irrelevant.** transducer lemmas.
* **C37 An empty precondition is trivially true.** expected refuted (`Or()` is false).
* **C38 Numbers keep their value through parsing.** decimal printing/reading; metric numbers expected refuted.
* **C39 Parsing leaves sys.tracebacklimit unchanged.** state machine; expected refuted. Stopped.v adds calls that are stopped by an exception from outside at any point; C39_stopped_exact says at which points a number is lost.
* **C40 Action parameters are kept one-to-one.** expected refuted for duplicated parameters.
* **C41 Type tags of terms are duplicate-free legal names.** list induction.
* **C42 Formatting only touches layout.** split_ws invariance.
* **C43 Typed variable lists survive printing and parsing.** expected refuted for untyped-before-typed and multi-typed; partial for the rest.
* **C44 Errors in typed lists are reported as PDDLParsingError.** expected refuted for functions. :functions, exactly: Prop_Functions.v.
* **C45 total-cost and numeric fluents require their requirements.** case analysis for all dictionaries.
* **C46 Operands are kept in order, first of equal ones.** relational spec of members and first occurrences; the stack loop computes it.
* **C47 A parsed condition or metric means what its text says.** meaning of the text as a recursive predicate on token trees; induction on the tree. Expected false for repeated operands of sums and products (C02) and for (). Metrics keep their numbers as texts: `stands_for` (Spec_Metric.v) reads them, and the metric parser is related to that of conditions.
* **C48 A parsed effect makes the changes its text says.** outcomes as collections of elementary changes with multiplicity, defined for token trees and for formulas; induction on the tree. Expected false when an increase or a oneof is written twice in one and, and for ().
* **C49 Formatting a file keeps what it declares.** composition of C32/C33 with an invariant of parsed objects; expected false for constructs that are read but not written back.
* **C50 A parsed domain declares exactly what its text declares.** inversion of the parser, section by section, against a specification of what a section lists; expected false for total-cost with variables.
* **C51 A parsed problem declares exactly what its text declares.** the same inversion for the problem parser. The elements of :init are compared with init_says (Spec_Init.v).
* **C52 Formatting twice is the same as formatting once.** the round trip lemmas of C32/C33 strengthened to keep the printed text of every member; equal sets print alike because every section is sorted. Only for files that survive the first round (C49); for problems, that is whenever the printed text is accepted, because reading back a node with a wrong number of operands fails (`TwiceProblem_facts.v`).
* **C53 Derived predicates have the types written or declared.** inversion of the parser rule down to the written head and the declaration it was checked against. Expected false for a variable repeated in a head. All heads: Spec_HeadsAll.v, Prop_HeadsAll.v.
* **C54 Parsing fails only with known kinds of exceptions.** every function of the parser model is shown to raise only exceptions of a list, by the structure of the code (Raise_facts, RaiseParse_facts); the raises that are unreachable (a constant in a head, When/Forall in a condition, a separator without a type, an action without a body) are excluded by invariants; a text for each listed outcome. Exceptions for lack of resources (RecursionError, MemoryError) are outside the model.
* **C55 The command line tool accepts exactly the files that parse and fit together.** `Main.v` models `cli` as a program that writes texts and may raise; `C55_success` (iff), `C55_output`, `C55_accepted_only`, `C55_quiet`, `C55_errors` (by C54), `C55_again` (by C49, C52 and the invariance of the checks under re-reading).
* **C56 Equal objects are interchangeable.** congruence of every constructor for the modelled `==` (the deduplication and the flattening respect it), then induction on formulas. Expected false for type checks and for raising: constants are compared by name only.
* **C57 Instantiating in two steps is the same as in one.** `instantiate` commutes with the normalisation of operators (`inst_mk_op`): first occurrences of the replaced leaves are those of the replaced first occurrences; induction on formulas. Expected false when one of the steps raises for constants of one name with different types.
* **C58 The parsers accept only texts of the grammar.** the rules and terminals of grammar.lark are copied one to one into a data structure (Spec_Grammar) with a generic derivation relation; a text is spelled by words separated by blanks and comments; induction on the parsed trees.
* **C59 Texts of the grammar are not syntax errors.** derivations of Spec_Grammar are turned into trees by inversion and induction on the number of words; on these trees no function of the model reaches its syntax error. Expected false: `(- a b)` and `(= f 3)` run into conflicts of the tables.
* **C60 Parsing in several threads leaves sys.tracebacklimit unchanged.** each access of the attribute is one step of a thread (Threads); a schedule is a list of thread numbers; invariants over all schedules. Expected false: a second call reads the 0 set by the first. C60_overlap_partial: calls may overlap as long as none begins while another is between setting and restoring the limit (Spec_Together.v).
* **C61 Objects can be hashed, copied and pickled in several threads.** each access of a __dict__ is one step of a thread whose stack of active hash() calls is explicit (Threads); invariants over all schedules, a measure for termination. Expected false: __getstate__ removes the entry between hasattr and the read.
* **C62 Declaring more requirements never breaks anything.** monotonicity of every check in the set of requirements: by induction on expressions for the parser's callbacks (through the characterisation of C35), by structural induction for the type checker, then through the constructors.
* **C63 Negative preconditions, conditional effects, numeric expressions and derived predicates need their flags.** expected false (the checks are commented out, vacuous or absent); then prove exactly which flags are never looked at: two texts that differ only in them have the same outcome, by induction over conditions, effects and sections, and each other flag makes a difference for some text.
* **C64 The definitions of a domain text are read one by one.** expected false because the parameters of the last action are still known when a derived condition is read; then prove that this is the only leak: actions depend on nothing but requirements and constants, derived predicates also on the last action in front of them, and texts whose definitions have the same places give equal domains, by induction over the sequence of definitions with the parser state as invariant.
* **C65 An accepted domain or problem only uses what it declares.** expected false (only constants and heads of derived predicates are looked up); refute it for predicates, arities, functions, variables and objects of problems; prove it for constants in actions and derived predicates and for heads of derived predicates by induction over conditions and effects.
* **C66 A plan text is read step by step.** model of the lexer, the tree reader and PlanTransformer; prove that a line break ends every lexer state and that reading is a homomorphism on balanced token sequences, by induction over the tokens with the stack generalised.
* **C67 Domains, problems and plans cannot be changed from outside.** a store of containers with references (Heap.v): constructors copy or keep their arguments as the code does. Expected false (functions dict, plan lists are kept; types, functions and a problem's own requirements are handed out). Prove by invariants over all programs that nothing else changes an object.
* **C68 Conditions, effects and numbers can be ordered.** < of every class and the operators functools.total_ordering derives (Compare.v). Expected false: conjunctions have no order, sets of variables are ordered by inclusion, so that two objects can each be greater than the other. Prove when comparisons raise, exactly which pairs are unrelated, and that < is a strict order compatible with ==.
* **C69 Objects can be made anew from their attributes.** Client programs copy_* that read the attributes and call the constructors (Spec_Copy.v). Prove that they return the same value: operands that were simplified once are not changed by simplification, types that were parsed once are parsed to themselves, a problem that passed its checks passes them again. Parsed objects are shown to be made through the constructors.
* **C70 Names are only names: consistent renaming changes nothing else.** Renaming of texts (character by character) and of objects in Spec_Rename.v; every model function is shown to commute with the renaming (Rename_facts, RenameText_facts, RenameParse_facts, RenameAll_facts).
* **C71 The generated parser reads the grammar: every text gets one answer, from its only tree.** Lark.v models the stack machine, the contextual lexer and the tree builder over tables (LarkTables.v); a checker validates the tables against Spec_Lark.v's grammar (LarkCheck_facts), soundness and completeness of the machine are proved for any tables that pass (LarkLR_facts, LarkSound_facts, LarkStop_facts), then lifted to texts and to trees of the EBNF rules (LarkText_facts, LarkTree_facts). That whatever has been read can be finished rests on a second check (LarkContext.v, LarkFinish_facts, LarkFailed_facts): for each state and rule that can begin there, a production that the rule continues, and words that finish it.
* **C72 The generated parser with the transformers' methods computes what the model of the parsers says.** Callbacks.v models each transformer method on the list of its children's values, by position; by induction over the trees of Spec_Lark.v, what a tree is worth (CallTree_facts to CallProblem_facts) is what Parser.v computes from the parenthesised text of its words; no method raises the parser's own exception (CallSyntax_facts); C71 connects trees and texts; conversely, every accepted text has such a tree (AcceptBase_facts to AcceptText_facts). Exceptions on texts without a tree: C71's trees that begin with the words read.
* **C73 A missing-requirement error names a requirement that is really missing.** Exceptions carry the requirement in the model. Induction over conditions, effects and sections: a raised error names the head of a list of alternatives that the written thing needs (the relation of C35, extended with types) and none of which is in the extended requirements. For problems the goal is judged with no requirements at all, so declaring the named one does not help: proved for every problem text and refuted by an example.
* **C74 What is printed determines the object.** Prop_Distinct.v. Formulas: the tree of tokens of a printed formula (form_sx, rx_form of C31) is shown injective up to same_reading (Spec_Distinct.v) by induction on the formula, with the reserved words kept apart from names; conversely same_reading formulas print alike. Domains, problems and plans: the text is read back to an object equal to both (C33, C32, C30) and == is an equivalence (C02). Refuted for objects that differ in the types of variable occurrences, and for formulas with a predicate and a function of one name or with a number and its text.
* **C75 The representation of an object identifies it.** `Repr.v`; a scanner cuts a text at the first comma or closing bracket outside brackets, and every representation is one uncut piece, so the pieces of equal texts are equal; parts printed with str by C74. Expected false: types are left out, numbers are shown by address, sets in iteration order.
* **C76 The search for cycles takes few iterations.** Count iterations of the loop of the model (rounds in Spec_Cost.v). At most one successor: a measure that decreases in every iteration gives (n+1)^2. Type hierarchies are such graphs; a line of types listed parents first takes about half of that. In general false: on the complete acyclic graph every path is walked, 2^m iterations (refutation for every m).
* **C77 The order in which things are listed does not matter.** False where `==` does not tell two listed things apart: a predicate name declared twice in different ways (the last declaration counts for derived predicates) and two constants of one name with different types given to the constructor (the first is kept and checked). Otherwise: the constructor's checks depend only on membership and on dictionary look-up, the two parser states after the declarations cannot be told apart by the readers of the definitions (congruence lemmas for every reader), so the same definitions are read to the same objects.
* **C78 What is printed is one expression in balanced parentheses.** A reader that only counts parentheses is the specification. Induction over the expression, section by section; indentation and the removal of empty lines change only white space. False of a constructed domain whose dictionary of functions gives a function a type such as `)`, which no constructor checks (refuted); everything parsed satisfies it without further conditions.
* **C79 A text that is cut short is not mistaken for a complete one.** Spec_Cut.v says when a rest adds only whitespace and comments. The lexer is a machine with a pending token, the reader one with a stack: after a prefix either a group is open (rejected), or nothing was read (rejected), or the whole tree was read and every further token would add a second tree. Printed texts: C78. False of plans, whose end is not marked (refuted): a part of a plan text is a syntax error or exactly the first steps. The generated parsers (Lark.v) reject cut texts too (Prop_CutLark.v), also where words touch; that the parser is then as before is refuted: the types read before the cut make the next call fail.
* **C80 The constructor of Problem accepts exactly the well-formed problems.** Spec_Made.v defines atoms and literals without the model's tests. C80_accepted_iff is an equivalence; C20_disagreement and C12 give the kinds of errors.
* **C81 A predicate or function called with terms.** Equivalences by unfolding the constructors; the correspondence with instantiate by induction over the variables. That the types of a predicate's terms are compared is refuted (C81_types_refuted).
* **C82 The shorthands variables() and constants() build the listed terms.** Spec_Words.v says what the words of a text are; every text has exactly one list of words (C82_words), the one that str.split() gives. Then C41 for every word.
* **C83 Equal and reformatted planning tasks have the same solutions.** Spec_Execute.v defines states completed by derived predicates, steps, runs and solutions, for an arbitrary relation that carries out changes; the truth and effect lemmas for equal formulas (C06, C48) lift to runs. With C49 the second part follows; it inherits the conditions of C49.
* **C84 Grounding a plan preserves what it does.** False when two increases become equal, as (increase (fuel ?x) 1) and (increase (fuel ?y) 1) do for x = y (C84_refuted, for a parsed domain). Proved under the conditions of C16 for condition and effect, which C16_effects_partial extends to effects.
* **C85 A parsed task has exactly the solutions that its files describe.** Spec_Task.v defines runs and solutions on the trees of tokens, independently of the library's objects (meaning and effects as in C47 and C48); the theorem compares them with Spec_Execute.v's on the parsed objects. Needs the conditions of C47 and C48 and that no parameter is repeated (C40) and no derived predicate's declaration is ambiguous; false otherwise (C85_refuted).
* **C86 Which plans can be grounded, and what is raised otherwise.** Spec_Instantiate.v defines the replacement of parameters as a relation and the two obstacles; induction over formulas gives the exact verdict of instantiate. The last sentence is false (C86_refuted): constants of a plan file have no types, so the grounding of an atom that mentions a typed constant of the domain raises ValueError when the step uses that constant. Domains with several actions of one name: Prop_PlanGround.v.
* **C87 A parsed object is no bigger than its text.** Spec_Size.v counts parts (types of terms excepted). Induction over the tree of parentheses: every callback returns at most as many parts as its group has tokens; the lexer yields at most one token per character. Spec_Depth.v counts nesting in formulas and in the characters of a text; the same inductions with maxima instead of sums.
* **C88 Parsers used by several threads.** Shared.v: a call is a sequence of callbacks, each a function of the transformer's attributes; a schedule is a list of thread numbers. Own parsers: the result of the rest of each call is an invariant of every step. Shared parser: expected false for actions (the attribute with the parameters of the current action is shared), and :types asserts that no call is active; the declarations are proved to be functions of the text in every leaf of the call tree. Problems: each read and write of _objects_by_name is a step; expected false for the objects, which are read back from the attribute; same :objects: the attribute is constant once written.
* **C89 A parser can be used again after an interrupted call.** Shared.v: a call is a sequence of steps on the parser's attributes; an interrupted one stops after any number of them. Problems: the table of objects always maps legal names to constants of that name, and == does not see its types. Domains: expected false after :types (the attribute is only reset at the end); proved when the interrupted texts have no :types, and that the parser then rejects every text with :types.
* **C90 The comparison operators agree with each other.** TermCompare.v models the operators made by functools.total_ordering. C90_right: `>` and `<=` of terms are a strict total order and its complement in all cases. C90_exact: the four operators agree exactly if the terms are not constants of one name with different types (C90_refuted). Derived predicates: right for different heads (C90_derived_partial); C90_derived_raises says when TypeError is raised.
