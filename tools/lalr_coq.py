"""Write rocq/theories/LarkTables.v (the LALR(1) tables of grammar.lark) and LarkCert.v (what is
needed to check in Coq that the tables read exactly the grammar of Spec_Lark.v).

usage: lalr_coq.py THEORIES_DIRECTORY"""
import re, sys, lalr

# ---------------------------------------------------------------- expressions of the grammar file
def load(text):
    rules = {}
    cur = None
    for line in text.split("\n"):
        line = re.sub(r"//.*$", "", line) if not line.startswith("COMMENT") else line
        if not line.strip() or line.strip().startswith("%"): continue
        m = re.match(r"^\??([\w@]+)\s*:\s*(.*)$", line)
        if m and not line[0].isspace():
            n, body = m.group(1), m.group(2)
            if n.split("@")[0].replace("_", "").isupper(): cur = None
            else: rules[n] = body; cur = n
        elif cur: rules[cur] += " " + line.strip()
    return {n: parse(b) for n, b in rules.items()}

def parse(body):
    toks = re.findall(r'"[^"]*"|[\w@]+|[()\[\]|*+]', body); i = 0
    def peek(): return toks[i] if i < len(toks) else None
    def alts():
        nonlocal i
        r = [seq()]
        while peek() == "|": i += 1; r.append(seq())
        return r[0] if len(r) == 1 else ("Alt", tuple(r))
    def seq():
        r = []
        while peek() not in (None, "|", ")", "]"): r.append(item())
        return r[0] if len(r) == 1 else ("Seq", tuple(r))
    def item():
        nonlocal i
        t = peek(); i += 1
        if t in "([":
            a = alts(); i += 1
            if t == "[": return ("Opt", a)
        elif t == '"?"': a = ("T", "?")
        elif t.split("@")[0].replace("_", "").isupper(): a = ("T", t)
        else: a = ("N", t)
        if peek() in ("*", "+"):
            op = peek(); i += 1
            return ("Star" if op == "*" else "Plus", a)
        return a
    return alts()

def width(e):
    k = e[0]
    if k == "T": return 0 if e[1] == "?" else 1
    if k == "N": return 1
    if k == "Seq": return sum(map(width, e[1]))
    if k == "Alt": return max(map(width, e[1]))
    if k == "Opt": return width(e[1])
    return 0

ABSENT = "absent"
def alts(e):
    k = e[0]
    if k == "T": return [(e[1],)]
    if k == "N": return [(("Rule", e[1]),)]
    if k == "Seq":
        r = [()]
        for x in reversed(e[1]): r = [a + b for a in alts(x) for b in r]
        return r
    if k == "Alt": return [a for x in e[1] for a in alts(x)]
    if k == "Opt": return alts(e[1]) + [(ABSENT,) * width(e[1])]
    if k == "Plus": return [(("Rep", e[1]),)]
    return [(("Rep", e[1]),), ()]
def syms(a): return tuple(x for x in a if x != ABSENT)
isnt = lambda x: isinstance(x, tuple)

def prods_of(rules, A):
    if A[0] == "Rep":
        l = alts(A[1])
        return l + [(A,) + a for a in l]
    return alts(rules[A[1]])

def reachable(rules, start):
    out, todo, seen = [], [("Rule", start)], set()
    while todo:
        A = todo.pop(0)
        if A in seen: continue
        seen.add(A); out.append(A)
        for a in prods_of(rules, A): todo += [x for x in syms(a) if isnt(x)]
    return out

# ---------------------------------------------------------------- the grammar of Spec_Lark.v
BASE = load(lalr.TEXT)
EFFECT = """
emptyor_effect:    LPAR RPAR
              |    effect
effect:            LPAR AND c_effect* RPAR
      |            c_effect@effect
"""
def c_effect(suffix, p):
    return """
c_effect%s:          LPAR FORALL LPAR typed_list_variable RPAR effect RPAR
        |          LPAR WHEN gd cond_effect RPAR
        |          LPAR ONEOF effect+ RPAR
        |          p_effect@%s
""" % (suffix, p)
def p_effect(s):
    return """
p_effect@%s:          LPAR NOT atomic_formula_term RPAR
        |          atomic_formula_term@%s
        |          num_effect
""" % (s, s) + atomic("@" + s)
def atomic(s):
    return """
atomic_formula_term%s:   LPAR predicate%s term* RPAR
                   |   LPAR EQUAL_OP term term RPAR
predicate%s: NAME%s
""" % (s, s, s, s)
CHANGES = load(EFFECT + c_effect("@effect", "effect") + c_effect("", "c_effect")
    + "".join(p_effect(s) for s in ("effect", "c_effect", "cond", "p")) + atomic("@gd") + """
gd:                atomic_formula_term@gd
  |                LPAR OR gd* RPAR
  |                LPAR NOT gd RPAR
  |                LPAR AND gd* RPAR
  |                LPAR IMPLY gd gd RPAR
  |                LPAR EXISTS LPAR typed_list_variable RPAR gd RPAR
  |                LPAR FORALL LPAR typed_list_variable RPAR gd RPAR
  |                LPAR binary_comp f_exp f_exp RPAR
cond_effect:       LPAR AND p_effect@p* RPAR
           |       p_effect@cond
binary_op: DIVIDE
primitive_type:   NAME@type
               |   OBJECT
literal_name:          atomic_formula_name@init
            |          LPAR NOT atomic_formula_name RPAR
atomic_formula_name@init:   LPAR predicate@init NAME* RPAR
predicate@init: NAME@init
""")
REFINED = dict(BASE); REFINED.update(CHANGES); del REFINED["p_effect"]

def er(s): return s.split("@")[0]
def er_e(e):
    if e[0] in ("T", "N"): return (e[0], er(e[1]))
    if e[0] in ("Seq", "Alt"): return (e[0], tuple(map(er_e, e[1])))
    return (e[0], er_e(e[1]))
def er_x(x):
    if not isnt(x): return er(x)
    return ("Rule", er(x[1])) if x[0] == "Rule" else ("Rep", er_e(x[1]))

# ---------------------------------------------------------------- Coq syntax
def q(s): return '"%s"' % s
def coq_e(e):
    if e[0] in ("T", "N"): return '%s %s' % (e[0], q(e[1]))
    if e[0] in ("Seq", "Alt"): return "%s [%s]" % (e[0], "; ".join(map(coq_e, e[1])))
    return "%s (%s)" % (e[0], coq_e(e[1]))
class Names:
    """short names for repeated data"""
    def __init__(self, pre): self.pre, self.d, self.defs = pre, {}, []
    def __call__(self, typ, text):
        if text not in self.d:
            n = "%s%d" % (self.pre, len(self.d)); self.d[text] = n
            self.defs.append("Definition %s : %s := %s." % (n, typ, text))
        return self.d[text]
def coq_nt(A): return "Rule %s" % q(A[1]) if A[0] == "Rule" else "Rep (%s)" % coq_e(A[1])
def coq_x(x): return "BN (%s)" % coq_nt(x) if isnt(x) else "BT %s" % q(x)
def coq_el(x): return "EAbsent" if x == ABSENT else "ES (%s)" % coq_x(x)
def lst(l): return "[" + "; ".join(l) + "]"

class Tables:
    def __init__(self, start):
        self.start = start
        nts = reachable(BASE, start)
        self.els = {}
        P = []
        for A in nts:
            for a in prods_of(BASE, A):
                P.append((A, syms(a))); assert (A, syms(a)) not in self.els, (A, a); self.els[(A, syms(a))] = a
        self.L = lalr.LALR(P, ("Rule", start))
        L = self.L
        self.end = L.go[0][("Rule", start)]
        self.act = []
        for a in L.act:
            r = {}
            for t, (o, v) in sorted(a.items()):
                if o == "s": r[t] = ("s", v)
                elif L.P[v][0] != "$root": r[t] = ("r", (L.P[v][0], self.els[L.P[v]]))
            self.act.append(r)
        self.goto = [{x: j for x, j in g.items() if isnt(x)} for g in L.go]
        self.cert()
    def cert(self):
        nts = reachable(REFINED, self.start)
        null, F = set(), {A: set() for A in nts}
        ch = True
        while ch:
            ch = False
            for A in nts:
                for a in prods_of(REFINED, A):
                    for x in syms(a):
                        add = F[x] if isnt(x) else {x}
                        if not add <= F[A]: F[A] |= add; ch = True
                        if x not in null: break
                    else:
                        if A not in null: null.add(A); ch = True
        self.null, self.first = null, F
        def firsts(r, Fo):
            out = set()
            for x in r:
                out |= F[x] if isnt(x) else {x}
                if x not in null: return out
            return out | Fo
        dom = {(0, ("Rule", self.start)): {"$END"}}
        todo = list(dom)
        while todo:
            k = todo.pop(); p, A = k
            for a in prods_of(REFINED, A):
                s, xs = p, syms(a)
                for i, x in enumerate(xs):
                    if isnt(x):
                        f = firsts(xs[i + 1:], dom[k]); j = (s, x)
                        if j not in dom: dom[j] = set(f); todo.append(j)
                        elif not f <= dom[j]: dom[j] |= f; todo.append(j)
                        s = self.goto[s][er_x(x)]
                    else:
                        s = self.act[s][er(x)][1]
        self.dom = dom
        # past symbols
        past = {0: ()}
        ch = True
        while ch:
            ch = False
            for s in range(len(self.act)):
                if s not in past: continue
                tr = [(t, v) for t, (o, v) in self.act[s].items() if o == "s"] + list(self.goto[s].items())
                for x, j in tr:
                    n = ((x,) + past[s])[:10]
                    if j in past:
                        k = 0
                        while k < len(n) and k < len(past[j]) and n[k] == past[j][k]: k += 1
                        n = n[:k]
                    if past.get(j) != n: past[j] = n; ch = True
        self.past = past
        # the words that are no NAME when they are the next word in a state: those that the lexer
        # took for another terminal in the state in which it read them
        n = len(self.act)
        lits = {t: lalr.TERMS[t].strip('"') for t in lalr.TERMS if lalr.TERMS[t].startswith('"')}
        ALL = frozenset(w for w in lits.values() if re.fullmatch("[a-z-]+", w) and w != "-")
        names = [ALL] * n
        for s in [0] + [v for a in self.act for o, v in a.values() if o == "s"]:
            if "NAME" in self.act[s]: names[s] = frozenset(lits[t] for t in self.act[s] if t in lits) & ALL
        red = [(s, a["NAME"][1][0]) for s, a in enumerate(self.act) if "NAME" in a and a["NAME"][0] == "r"]
        ch = True
        while ch:
            ch = False
            for s, A in red:
                for g in self.goto:
                    if A in g and not names[g[A]] <= names[s]: names[g[A]] &= names[s]; ch = True
        self.names = [x if "NAME" in self.act[s] else frozenset() for s, x in enumerate(names)]
        # weights that every reduction makes smaller
        heavy, extra = 100, 20
        prods = {v for a in self.act for o, v in a.values() if o == "r"}
        empty = {s for s, a in enumerate(self.act) if any(o == "r" and not syms(v[1]) for o, v in a.values())}
        As = {A for A, _ in prods}
        room = {A: extra if any(g.get(A) in empty for g in self.goto) else 0 for A in As}
        w = {A: heavy for A in As}
        ch = True
        while ch:
            ch = False
            for A, a in prods:
                n = (sum(w[x] if isnt(x) else heavy for x in syms(a)) if syms(a) else extra) - room[A] - 1
                if n < w[A]: w[A] = n; ch = True; assert n >= 0, A
        self.rank = {A: (w[A], room[A]) for A in sorted(As)}

class Contexts:
    """for each state and rule that can begin there, a production in which the rule comes at this
    point; for each rule, a production with which its words can be finished; the states before a state"""
    def __init__(self, t):
        n = len(t.act)
        self.preds = [set() for _ in range(n)]
        for s in range(n):
            for j in [v for o, v in t.act[s].values() if o == "s"] + list(t.goto[s].values()): self.preds[j].add(s)
        def back(s, i):
            S = {s}
            for _ in range(i): S = {p for x in S for p in self.preds[x]}
            return S
        nts = reachable(REFINED, t.start)
        # productions that end, without a NAME after a rule
        def fill(sm, xs):
            w = ()
            for x in reversed(xs):
                if not isnt(x): w = (er(x),) + w
                elif x not in sm or w[:1] == ("NAME",): return None
                else: w = sm[x] + w
            return w
        self.samples, sm = [], {}
        for any_word in (False, True):
            ch = True
            while ch:
                ch = False
                for A in nts:
                    if A in sm: continue
                    for k, a in enumerate(prods_of(REFINED, A)):
                        w = fill(sm, syms(a))
                        if w is not None and (any_word or w[:1] != ("NAME",)):
                            sm[A] = w; self.samples.append((A, k)); ch = True; break
        assert len(sm) == len(nts)
        par = {}
        for (p, A) in t.dom:
            for k, a in enumerate(prods_of(REFINED, A)):
                s, xs = p, syms(a)
                for i, x in enumerate(xs):
                    if isnt(x):
                        w = fill(sm, xs[i + 1:])
                        if w is not None and w[:1] != ("NAME",): par.setdefault((s, x), []).append((A, k, i))
                        s = t.goto[s][er_x(x)]
                    else: s = t.act[s][er(x)][1]
        # (i, depth, alternatives); depth is 0 when i > 0
        self.ctx = {}
        for k in t.dom:
            s, B = k
            for i in sorted({i for _, _, i in par.get(k, ()) if i > 0}):
                alts_ = [(A, j) for A, j, i2 in par[k] if i2 == i]
                if not all(any((p, A) in t.dom for A, _ in alts_) for p in back(s, i)): continue
                best = []
                for A, j in alts_:
                    if A not in [x for x, _ in best]: best.append((A, j))
                self.ctx[k] = (i, 0, best); break
        root = (0, ("Rule", t.start))
        depth = {k: 0 for k in self.ctx}; depth[root] = 0
        ch = True
        while ch:
            ch = False
            for k in t.dom:
                if k in depth: continue
                s, B = k
                for A, j, i in par.get(k, ()):
                    if i == 0 and (s, A) in depth:
                        depth[k] = depth[(s, A)] + 1; self.ctx[k] = (0, depth[k], [(A, j)]); ch = True; break
        assert all(k in depth for k in t.dom), [k for k in t.dom if k not in depth][:5]

def main(out):
    names = Names("e")
    pr = Names("p")
    def nt_(A): return coq_nt(A) if A[0] == "Rule" else names("nt", coq_nt(A))
    def prod_(A, a):
        def el(x):
            if x == ABSENT: return "EAbsent"
            return "ES (BN (%s))" % nt_(x) if isnt(x) else "ES (BT %s)" % q(x)
        return pr("act", "Reduce (%s) %s" % (nt_(A), lst(map(el, a))))
    TS = {s: Tables(s) for s in ("domain", "problem", "plan")}
    body = []
    for s, t in TS.items():
        rows = []
        for r in t.act:
            rows.append(lst("(%s, %s)" % (q(k), "Shift %d" % (v + 1) if o == "s" else prod_(*v)) for k, (o, v) in sorted(r.items())))
        gs = [lst("(%s, %d)" % (nt_(A), j + 1) for A, j in sorted(g.items())) for g in t.goto]
        body.append("Definition %s_actions : list (list (string * act)) :=\n  [%s]%%positive." % (s, ";\n   ".join(rows)))
        body.append("Definition %s_gotos : list (list (nt * positive)) :=\n  [%s]%%positive." % (s, ";\n   ".join(gs)))
        body.append("Definition %s_table : table :=\n  mkTable (map_of 1 %s_actions) (map_of 1 %s_gotos) %d%%positive." % (s, s, s, t.end + 1))
    head = '''(** The LALR(1) tables that Lark builds from pddl/parser/grammar.lark for the three start symbols
    (pddl/parser/base.py:34-40; domain.py:557, problem.py:222, plan.py:51).  Written by
    tools/lalr_coq.py.  One row per state. *)
From Coq Require Import String List PArith.
From Verif Require Import Spec_Grammar Lark.
Import ListNotations.
Open Scope string_scope.
Open Scope list_scope.
'''
    open(out + "/LarkTables.v", "w").write("\n".join([head] + names.defs + pr.defs + body) + "\n")
    names = Names("r")
    sets = Names("f")
    body = []
    def nt_(A): return coq_nt(A) if A[0] == "Rule" else names("nt", coq_nt(A))
    def x_(x): return "BN (%s)" % nt_(x) if isnt(x) else "BT %s" % q(x)
    def set_(l): return sets("list string", lst(q(x) for x in sorted(l)))
    for s, t in TS.items():
        by = {}
        for (st, A), f in t.dom.items(): by.setdefault(st, []).append("(%s, %s)" % (nt_(A), set_(f)))
        body.append("Definition %s_follow : list (list (nt * list string)) :=\n  [%s]." % (s, ";\n   ".join(lst(sorted(by.get(i, []))) for i in range(len(t.act)))))
        body.append("Definition %s_first : list (nt * (bool * list string)) :=\n  [%s]." % (s, ";\n   ".join("(%s, (%s, %s))" % (nt_(A), "true" if A in t.null else "false", set_(f)) for A, f in t.first.items())))
        body.append("Definition %s_past : list (list bsym) :=\n  [%s]." % (s, ";\n   ".join(lst(map(x_, t.past[i])) for i in range(len(t.act)))))
        body.append("Definition %s_names : list (list string) :=\n  [%s]." % (s, ";\n   ".join(set_(x) for x in t.names)))
        body.append("Definition %s_rank : list (nt * (nat * nat)) :=\n  [%s]." % (s, ";\n   ".join("(%s, (%d, %d))" % (nt_(A), a, b) for A, (a, b) in t.rank.items())))
    head = '''(** What is needed to check that the tables of LarkTables.v read exactly the grammar of
    Spec_Lark.v: for each state, the rules that can begin there and what can follow them; what each
    rule can begin with; the symbols that come before a state; the words that are no NAME when they
    come next; a weight for each rule.  Written by tools/lalr_coq.py. *)
From Coq Require Import String List.
From Verif Require Import Spec_Grammar Lark.
Import ListNotations.
Open Scope string_scope.
Open Scope list_scope.
'''
    open(out + "/LarkCert.v", "w").write("\n".join([head] + names.defs + sets.defs + body) + "\n")
    names = Names("r")
    body = []
    for s, t in TS.items():
        c = Contexts(t)
        def alt(x): return "(%s, %d)" % (nt_(x[0]), x[1])
        rows = [[] for _ in t.act]
        for (st, B), (i, d, al) in c.ctx.items(): rows[st].append("(%s, (%d, %d, %s))" % (nt_(B), i, d, lst(map(alt, al))))
        body.append("Definition %s_context : list (list (nt * (nat * nat * list (nt * nat)))) :=\n  [%s]." % (s, ";\n   ".join(lst(sorted(r)) for r in rows)))
        body.append("Definition %s_samples : list (nt * nat) :=\n  [%s]." % (s, ";\n   ".join(map(alt, c.samples))))
        body.append("Definition %s_before : list (list positive) :=\n  [%s]%%positive." % (s, ";\n   ".join(lst(str(j + 1) for j in sorted(r)) for r in c.preds)))
    head = '''(** What is needed to check that every text that the parser has begun to read can be finished: for
    each state and rule that can begin there, productions in which the rule comes at this point (how
    many symbols come before it, a depth, the rules and the numbers of their productions); for each
    rule, the production with which it is finished; the states before each state.  Written by
    tools/lalr_coq.py. *)
From Coq Require Import String List PArith.
From Verif Require Import Spec_Grammar Lark.
Import ListNotations.
Open Scope string_scope.
Open Scope list_scope.
'''
    open(out + "/LarkContext.v", "w").write("\n".join([head] + names.defs + body) + "\n")
    return TS
if __name__ == "__main__":
    TS = main(sys.argv[1])
