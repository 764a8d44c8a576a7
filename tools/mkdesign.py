#!/usr/bin/env python3
"""Rewrites section 3 of DESIGN.md from properties.jsonl and design_rows.py."""
import json, sys
sys.path.insert(0, "/verif/tools")
from design_rows import rows
d = open("/verif/DESIGN.md").read()
head = d.split("## 3. Properties")[0]
intro = """## 3. Properties

Status words: *proved*; *refuted* means the English property is false of this code and a
theorem `..._refuted` exhibits the failing input, next to the strongest true variant, named
`..._partial` when it is weaker than the property. `MANIFEST.json` has the exact theorem names.

"""
out = head + intro
for l in open("/verif/properties.jsonl"):
    p = json.loads(l)
    out += f"* **{p['id']} {p['title']}.** {rows[p['id']]}\n"
open("/verif/DESIGN.md", "w").write(out)
