#!/usr/bin/env python3
"""Rebuild MANIFEST.json from the theorem names in rocq/theories/*_props.v and
the notes in tools/notes.json.  A property is partial if notes.json says so."""
import json, re, glob, os
root = os.path.dirname(os.path.dirname(os.path.abspath(__file__)))
ids = [json.loads(l)["id"] for l in open(root + "/properties.jsonl")]
notes = json.load(open(root + "/tools/notes.json"))
thms = {}
for f in sorted(glob.glob(root + "/rocq/theories/*.v")):
    for m in re.finditer(r"^Theorem\s+(C\d\d+)(_\w+)", open(f).read(), re.M):
        thms.setdefault(m.group(1), []).append(m.group(1) + m.group(2))
claims = []
for i in ids:
    n = notes.get(i, {})
    t = thms.get(i, [])
    if not t:
        if n.get("status") == "not_applicable":
            claims.append({"property": i, "status": "not_applicable", "theorems": [], "note": n["note"]})
        continue
    st = n.get("status", "proved")
    claims.append({"property": i, "status": st, "theorems": t, "note": n.get("note", "")})
for i in thms:
    assert i in ids, i
json.dump({"claims": claims}, open(root + "/MANIFEST.json", "w"), indent=1)
print(len(claims), "claims,", sum(len(c["theorems"]) for c in claims), "theorems;",
      "missing:", [i for i in ids if i not in {c["property"] for c in claims}])
