"""Write MANIFEST.json from ROWS: property -> (status, theorems, note)."""
import json, re, glob, os
here = os.path.dirname(os.path.abspath(__file__))
root = os.path.dirname(here)
exec(open(os.path.join(here, "manifest_rows.py")).read())
names = set()
for f in glob.glob(os.path.join(root, "rocq/theories/*.v")):
    names |= set(re.findall(r"^\s*(?:Theorem|Lemma|Corollary)\s+([\w']+)", open(f).read(), re.M))
props = [json.loads(l)["id"] for l in open(os.path.join(root, "properties.jsonl"))]
claims = []
for p in props:
    if p not in ROWS:
        print("no row for", p)
        continue
    status, thms, note = ROWS[p]
    for t in thms:
        if t not in names:
            print("unknown theorem", t, "in", p)
    claims.append({"property": p, "status": status, "theorems": thms, "note": note})
json.dump({"claims": claims}, open(os.path.join(root, "MANIFEST.json"), "w"), indent=1)
allthm = {t for r in ROWS.values() for t in r[1]}
for n in sorted(names):
    if re.match(r"C\d\d_", n) and n not in allthm:
        print("unlisted", n)
