#!/usr/bin/env python3
"""Mutation testing of the theorems.

usage: mutate.py SPEC.json [ID ...]

With "targets" (names of Prop_ files) in a mutation, only these files and what they need are rebuilt.

SPEC.json is a list of {"id", "file", "definition", "old", "new", "edit", "claim"}.  For each
mutation the rocq directory is copied to a scratch directory, `old` is replaced by `new` in
theories/<file> (it must occur exactly once; further edits may follow in "also"), and the copy is rebuilt.  Lemmas that no longer
prove are turned into Admitted in the scratch copy and the build goes on, so that at the end
`Print Assumptions` below each property theorem tells exactly which property theorems depended on
a broken lemma.  One JSON line per mutation is appended to seeded/LOG.jsonl.
"""
import json, os, re, shutil, subprocess, sys

VERIF = os.path.dirname(os.path.dirname(os.path.abspath(__file__)))
# a built copy of rocq/ to start from
BASE = os.environ.get('MUTATE_BASE', os.path.join(VERIF, 'rocq'))
HEAD = re.compile(r'^\s*(?:Local\s+|Global\s+)?(Lemma|Theorem|Example|Corollary|Fact|Remark|Instance)\s+([\w\']+)')
DEF = re.compile(r'^\s*(?:Local\s+|Global\s+)?(Definition|Fixpoint|Inductive|Record|CoInductive|Ltac)\s+([\w\']+)')

def build(d, targets):
    goals = ' '.join('theories/%s.vo' % t for t in targets)
    p = subprocess.run('coq_makefile -f _CoqProject -o Makefile >/dev/null && make -k -j2 %s 2>&1' % goals,
                       shell=True, cwd=d, capture_output=True, text=True, timeout=3600)
    return p.returncode, p.stdout

def admit(path, line):
    """turn the proof that contains `line` (1-based) into Admitted; return the lemma's name"""
    src = open(path).read().split('\n')
    i = line - 1
    while i >= 0 and not HEAD.match(src[i]):
        if DEF.match(src[i]) and i < line - 1:
            pass
        i -= 1
    if i < 0:
        return None
    name = HEAD.match(src[i]).group(2)
    text = '\n'.join(src[i:])
    m = re.search(r'\bProof\b[^.]*\.', text)
    if not m:
        return None
    e = re.search(r'\b(Qed|Defined)\.', text[m.end():])
    if not e:
        return None
    end = m.end() + e.end()
    stmt_lines = text[:m.start()].count('\n')
    body_lines = text[:end].count('\n')
    if line - 1 > i + body_lines:
        return None
    new = text[:m.start()] + 'Admitted.' + '\n' * (body_lines - stmt_lines) + text[end:]
    open(path, 'w').write('\n'.join(src[:i] + [new]) if i else new)
    return name

def run(m, scratch='/tmp/mut'):
    d = os.path.join(scratch, m['id'])
    shutil.rmtree(d, ignore_errors=True)
    os.makedirs(scratch, exist_ok=True)
    subprocess.run(['cp', '-a', BASE, d], check=True)
    path = os.path.join(d, 'theories', m['file'])
    s = open(path).read()
    if s.count(m['old']) != 1:
        return {'id': m['id'], 'error': 'pattern occurs %d times' % s.count(m['old'])}
    open(path, 'w').write(s.replace(m['old'], m['new']))
    for e in m.get('also', []):
        path = os.path.join(d, 'theories', e['file'])
        s = open(path).read()
        if s.count(e['old']) != 1:
            return {'id': m['id'], 'error': 'pattern occurs %d times' % s.count(e['old'])}
        open(path, 'w').write(s.replace(e['old'], e['new']))
    broken, invalid = [], None
    outs = ''
    for _ in range(120):
        rc, out = build(d, m.get('targets', []))
        outs += out
        if rc == 0:
            break
        errs = re.findall(r'File "\./theories/(\w+\.v)", line (\d+), characters[^\n]*\n((?:.*\n){0,6})', out)
        errs = [(f, int(l), t) for f, l, t in errs if 'Error' in t]
        if not errs:
            invalid = 'no error location: ' + out[-500:]
            break
        progress = False
        for f, l, t in {e[0]: e for e in errs}.values():
            n = admit(os.path.join(d, 'theories', f), l)
            if n:
                broken.append(f[:-2] + '.' + n); progress = True
            else:
                invalid = '%s line %d: %s' % (f, l, t.strip()[:300])
        if not progress:
            break
        invalid = None
    failed = []
    if not invalid:
        for f in sorted(os.listdir(os.path.join(d, 'theories'))):
            if not (f.startswith('Prop_') and f.endswith('.v')) or m.get('targets') and f[:-2] not in m['targets']:
                continue
            names = re.findall(r'^Print Assumptions (\w+)\.', open(os.path.join(d, 'theories', f)).read(), re.M)
            p = subprocess.run(['coqc', '-Q', 'theories', 'Verif', 'theories/' + f], cwd=d,
                               capture_output=True, text=True)
            parts = re.findall(r'Closed under the global context|Axioms:\n', p.stdout)
            for n, a in zip(names, parts):
                if a.startswith('Axioms'):
                    failed.append(n)
            if len(parts) != len(names):
                invalid = 'cannot match assumptions in ' + f + p.stderr[-300:]
    shutil.rmtree(d, ignore_errors=True)
    r = {'id': m['id'], 'definition': m['file'][:-2] + '.' + m['definition'].split('.')[-1], 'edit': m['edit'],
         'claim': m['claim'], 'theorems_failed': failed, 'broken_lemmas': broken,
         'theorems_tightened': m.get('tightened', [])}
    if m.get('targets'):
        r['built'] = m['targets']
    if invalid:
        r['invalid'] = invalid
    return r

if __name__ == '__main__':
    spec = json.load(open(sys.argv[1]))
    ids = sys.argv[2:]
    for m in spec:
        if ids and m['id'] not in ids:
            continue
        r = run(m)
        print(json.dumps(r), flush=True)
        if not r.get('error') and not r.get('invalid'):
            with open(os.path.join(VERIF, 'seeded', 'LOG.jsonl'), 'a') as f:
                f.write(json.dumps(r) + '\n')
