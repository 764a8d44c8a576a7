"""Compare Parser.v with the LALR(1) tables of lalr.py on random (mutated) sentences.

usage: lalr_check.py SEED N > check.v ; coqc -Q rocq/theories Verif check.v
The file contains one Compute per batch that must print [] (the indices of the disagreements)."""
import sys, random, lalr
random.seed(int(sys.argv[1])); N = int(sys.argv[2])
by, mind = lalr.min_depth(lalr.PRODS)
KW = ["and", "or", "not", "when", "forall", "object", "either", "number", "define", "oneof",
      "increase", "minimize", "total-cost", "imply", "exists", "domain"]
TOK = ["(", ")", "?", "-", "+", "*", "/", "=", ">=", "<", "a", "b", "3", "2.5"] + KW
HEAD = ("( define ( domain d ) ( :requirements :adl :typing :fluents :non-deterministic :equality "
        ":action-costs :derived-predicates ) ( :types a b c t u - t ) ( :constants a b c ) "
        "( :predicates ( p ? x - t ) ( q ) ( a ? x ) ( b ) ( c ? x ? y ) )").split()
def gen(sym, depth):
    names = ["a", "b", "c"] if random.random() < .7 else ["a", "b"] + KW
    return lalr.sentence(sym, depth, by, names, mind)
def mutate(ts):
    ts = list(ts)
    for _ in range(random.choice([0, 0, 1, 1, 2])):
        i = random.randrange(len(ts) + 1)
        r = random.random()
        if r < .35: ts.insert(i, random.choice(TOK))
        elif r < .65 and ts: del ts[i % len(ts)]
        elif ts: ts[i % len(ts)] = random.choice(TOK)
    return ts
def case():
    k = random.randrange(9)
    d = random.randrange(2, 9)
    if k == 0:
        return "domain", mutate(HEAD + "( :action x :parameters ( ) :precondition".split() + gen("gd", d) + ") )".split()) if random.random() < .2 else \
            HEAD + "( :action x :parameters ( ) :precondition".split() + mutate(gen("gd", d)) + ":effect ( ) ) )".split()
    if k == 1:
        return "domain", HEAD + "( :action x :parameters ( ) :precondition ( ) :effect".split() + mutate(gen("effect", d)) + ") )".split()
    if k == 2:
        return "domain", HEAD + "( :action x :parameters (".split() + mutate(gen("typed_list_variable", d)) + ") :precondition ( ) :effect ( ) ) )".split()
    if k == 3:
        return "domain", HEAD + mutate(gen("functions", d)) + [")"]
    if k == 4:
        return "domain", "( define ( domain d ) ( :requirements :typing )".split() + mutate(gen("types", d)) + [")"]
    if k == 5:
        return "problem", "( define ( problem p ) ( :domain d ) ( :objects a b )".split() + mutate(gen("init", d) + gen("goal", d)) + [")"]
    if k == 6:
        return "problem", "( define ( problem p ) ( :domain d ) ( :init ) ( :goal ( q ) )".split() + mutate(gen("metric_spec", d)) + [")"]
    if k == 7:
        return "plan", mutate(gen("plan", d))
    return "domain", HEAD + mutate(gen("derived_predicates", d)) + [")"]
print("From Coq Require Import String List. Import ListNotations. Open Scope string_scope.")
print("From Verif Require Import Py Lexer Parser.")
print("""Definition verdict {A} (r : res A) : option bool :=
  match r with Ok _ => Some true | Err LarkSyntaxError => Some false | Err _ => None end.
Definition run (k s : string) : option bool :=
  if String.eqb k "domain" then verdict (parse_domain_fresh s)
  else if String.eqb k "problem" then verdict (parse_problem s) else verdict (parse_plan s).
Definition bad (c : string * string * bool) : bool :=
  let '(k, s, b) := c in match run k s with Some b' => negb (Bool.eqb b b') | None => false end.
Definition skipped (c : string * string * bool) : bool :=
  let '(k, s, b) := c in match run k s with Some _ => false | None => true end.""")
print("""Definition err (c : string * string * bool) : list exn :=
  let '(k, s, b) := c in
  if String.eqb k "domain" then match parse_domain_fresh s with Ok _ => [] | Err e => [e] end
  else if String.eqb k "problem" then match parse_problem s with Ok _ => [] | Err e => [e] end
  else match parse_plan s with Ok _ => [] | Err e => [e] end.""")
seen = set(); B = []
while len(B) < N:
    k, ts = case()
    if len(ts) > 260 or (k, tuple(ts)) in seen: continue
    seen.add((k, tuple(ts)))
    B.append((k, " ".join(ts), lalr.accepts(k, ts)))
for i in range(0, N, 100):
    print("Definition b%d := [%s]." % (i, ";\n".join('("%s","%s",%s)' % (k, s, "true" if a else "false") for k, s, a in B[i:i+100])))
    print("Eval vm_compute in (filter bad b%d, (length (filter (fun c => snd c) b%d), length (filter skipped b%d))%%nat)." % (i, i, i))
