#!/usr/bin/env python3
"""Regenerate MANIFEST.json from the theorem names in rocq/theories/Prop_*.v.

A property is "proved" when none of its theorems ends in _partial or _refuted.
Notes come from tools/notes.json.
"""
import collections
import glob
import json
import os
import re

root = os.path.dirname(os.path.dirname(os.path.abspath(__file__)))
notes = json.load(open(os.path.join(root, "tools", "notes.json")))
props = [json.loads(l)["id"] for l in open(os.path.join(root, "properties.jsonl")) if l.strip()]
thms = collections.defaultdict(list)
for path in sorted(glob.glob(os.path.join(root, "rocq/theories/Prop_*.v"))):
    for name in re.findall(r"^Theorem (C\d\d\w*)", open(path).read(), re.M):
        thms[name.split("_")[0]].append(name)
claims = []
for pid in props:
    names = thms.get(pid, [])
    if not names:
        continue
    status = "proved"
    if any(n.endswith(("_partial", "_refuted")) for n in names):
        status = "partial"
    claims.append({"property": pid, "status": status, "theorems": names, "note": notes.get(pid, "")})
json.dump({"claims": claims}, open(os.path.join(root, "MANIFEST.json"), "w"), indent=1)
missing = [p for p in props if p not in thms]
print(len(claims), "claims;", sum(c["status"] == "proved" for c in claims), "proved; missing:", " ".join(missing))
