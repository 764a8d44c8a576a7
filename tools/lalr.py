"""LALR(1) tables for /repo/pddl/parser/grammar.lark, read as text.

Used to cross-check the hand-written rule functions of Parser.v: the tables are built the way Lark
builds them (shift wins over reduce, terminals chosen among those the current state accepts), and
sentences, accepted or not, are compared with what the Coq model says (see lalr_check.py).
"""
import re, random

TEXT = open("/repo/pddl/parser/grammar.lark").read()

def load(text):
    rules, terms = {}, {}
    cur = None
    for line in text.split("\n"):
        line = re.sub(r"//.*$", "", line) if not line.startswith("COMMENT") else line
        if not line.strip() or line.strip().startswith("%"):
            continue
        m = re.match(r"^\??(\w+)\s*:\s*(.*)$", line)
        if m and not line[0].isspace():
            n, body = m.group(1), m.group(2)
            if n.isupper() or n.replace("_", "").isupper():
                terms[n] = body.strip(); cur = None
            else:
                rules[n] = body; cur = n
        elif cur:
            rules[cur] += " " + line.strip()
    return rules, terms

class EBNF:
    def __init__(self, rules):
        self.prods, self.cache, self.n = [], {}, 0
        for n, body in rules.items():
            self.toks = re.findall(r'"[^"]*"|\w+|[()\[\]|*+]', body); self.i = 0
            for alt in self.alts():
                self.prods.append((n, tuple(alt)))
        seen = set(); out = []
        for p in self.prods:
            if p not in seen: seen.add(p); out.append(p)
        self.prods = out
    def peek(self): return self.toks[self.i] if self.i < len(self.toks) else None
    def alts(self):
        r = self.seq()
        while self.peek() == "|":
            self.i += 1; r = r + self.seq()
        return r
    def seq(self):
        out = [[]]
        while self.peek() not in (None, "|", ")", "]"):
            item = self.item()
            out = [a + b for a in out for b in item]
        return out
    def item(self):
        t = self.peek(); self.i += 1
        if t == "(":
            a = self.alts(); assert self.peek() == ")"; self.i += 1
        elif t == "[":
            a = self.alts(); assert self.peek() == "]"; self.i += 1
            return a + [[]]
        elif t == '"?"': a = [["QMARK"]]
        else: a = [[t]]
        if self.peek() in ("*", "+"):
            op = self.peek(); self.i += 1
            h = self.plus(a)
            return [[h]] if op == "+" else [[h], []]
        return a
    def plus(self, a):
        key = tuple(map(tuple, a))
        if key not in self.cache:
            self.n += 1; h = "__plus_%d" % self.n; self.cache[key] = h
            for x in a:
                self.prods.append((h, tuple(x))); self.prods.append((h, (h,) + tuple(x)))
        return self.cache[key]

class LALR:
    def __init__(self, prods, start):
        # keep reachable rules
        by = {}
        for l, r in prods: by.setdefault(l, []).append(r)
        reach, todo = set(), [start]
        while todo:
            x = todo.pop()
            if x in reach or x not in by: continue
            reach.add(x); todo += [y for r in by[x] for y in r]
        self.P = [("$root", (start, ))] + [(l, r) for l, r in prods if l in reach]
        self.by = {}
        for i, (l, r) in enumerate(self.P): self.by.setdefault(l, []).append(i)
        self.nt = set(self.by)
        self.first()
        self.build()
    def first(self):
        self.null = set(); ch = True
        while ch:
            ch = False
            for l, r in self.P:
                if l not in self.null and all(x in self.null for x in r): self.null.add(l); ch = True
        self.F = {x: set() for x in self.nt}; ch = True
        while ch:
            ch = False
            for l, r in self.P:
                for x in r:
                    add = self.F[x] if x in self.nt else {x}
                    if not add <= self.F[l]: self.F[l] |= add; ch = True
                    if x not in self.null: break
    def fs(self, seq, la):
        out = set()
        for x in seq:
            out |= self.F[x] if x in self.nt else {x}
            if x not in self.null: return out
        return out | la
    def closure0(self, k):
        s, todo = set(k), list(k)
        while todo:
            p, d = todo.pop(); r = self.P[p][1]
            if d < len(r) and r[d] in self.nt:
                for q in self.by[r[d]]:
                    if (q, 0) not in s: s.add((q, 0)); todo.append((q, 0))
        return s
    def build(self):
        st = {frozenset([(0, 0)]): 0}; order = [frozenset([(0, 0)])]; go = []
        i = 0
        while i < len(order):
            c = self.closure0(order[i]); tr = {}
            for p, d in c:
                r = self.P[p][1]
                if d < len(r): tr.setdefault(r[d], set()).add((p, d + 1))
            g = {}
            for x, k in tr.items():
                k = frozenset(k)
                if k not in st: st[k] = len(order); order.append(k)
                g[x] = st[k]
            go.append(g); i += 1
        self.go = go
        # lookaheads by propagation over LR(1) closures of the kernels
        LA = [{it: set() for it in k} for k in order]; LA[0][(0, 0)].add("$END")
        ch = True
        while ch:
            ch = False
            for i, k in enumerate(order):
                c1 = self.closure1({it: set(LA[i][it]) for it in k})
                for (p, d), la in c1.items():
                    r = self.P[p][1]
                    if d < len(r):
                        t = LA[go[i][r[d]]][(p, d + 1)]
                        if not la <= t: t |= la; ch = True
        self.act = []
        for i, k in enumerate(order):
            a = {x: ("s", j) for x, j in go[i].items() if x not in self.nt}
            red = {}
            for (p, d), la in self.closure1({it: set(LA[i][it]) for it in k}).items():
                if d == len(self.P[p][1]):
                    for t in la: red.setdefault(t, set()).add(p)
            for t, ps in red.items():
                if len(ps) > 1: raise Exception("reduce/reduce %s %s" % (t, [self.P[p] for p in ps]))
                if t not in a: a[t] = ("r", next(iter(ps)))
            self.act.append(a)
    def closure1(self, c):
        todo = list(c)
        while todo:
            p, d = it = todo.pop(); r = self.P[p][1]
            if d < len(r) and r[d] in self.nt:
                la = self.fs(r[d + 1:], c[it])
                for q in self.by[r[d]]:
                    o = c.setdefault((q, 0), set())
                    if not la <= o or not o:
                        before = len(o); o |= la
                        if len(o) != before or before == 0: todo.append((q, 0))
        return c
    def accepts(self, toks, classify):
        stack = [0]
        for t in list(toks) + [None]:
            a = self.act[stack[-1]]
            k = "$END" if t is None else classify(t, a)
            while True:
                a = self.act[stack[-1]]
                if k not in a: return False
                o, v = a[k]
                if o == "s":
                    stack.append(v); break
                l, r = self.P[v]
                if l == "$root": return True
                if r: del stack[-len(r):]
                stack.append(self.go[stack[-1]][l])
        return False

RULES, TERMS = load(TEXT)
STR = {}
for k, v in TERMS.items():
    if v.startswith('"'): STR.setdefault(v.strip('"'), []).append(k)
STR["?"] = ["QMARK"]

def classify(tok, accepted):
    for k in STR.get(tok, []):
        if k in accepted: return k
    if re.fullmatch(r"[a-zA-Z][a-zA-Z0-9_-]*", tok): return "NAME"
    if re.fullmatch(r"[0-9]+(\.[0-9]+)*", tok): return "NUMBER"
    return "?bad"

PRODS = EBNF(RULES).prods
PARSERS = {s: LALR(PRODS, s) for s in ("domain", "problem", "plan")}
def accepts(start, toks): return PARSERS[start].accepts(toks, classify)

def sentence(sym, depth, by, names, mind):
    """a random sentence of the context-free grammar"""
    if sym not in by:
        if sym == "NAME": return [random.choice(names)]
        if sym == "NUMBER": return [random.choice(["0", "3", "2.5"])]
        if sym == "QMARK": return ["?"]
        return [TERMS[sym].strip('"')]
    alts = by[sym]
    if depth <= 0:
        m = min(max([mind.get(x, 0) for x in r] or [0]) for r in alts)
        alts = [r for r in alts if max([mind.get(x, 0) for x in r] or [0]) == m]
    r = random.choice(alts)
    return [t for x in r for t in sentence(x, depth - 1, by, names, mind)]

def min_depth(prods):
    by = {}
    for l, r in prods: by.setdefault(l, []).append(r)
    d = {x: 10**6 for x in by}; ch = True
    while ch:
        ch = False
        for l, r in prods:
            v = 1 + max([d.get(x, 0) for x in r] or [0])
            if v < d[l]: d[l] = v; ch = True
    return by, d
