#!/usr/bin/env python3
"""Regenerate MANIFEST.json from the theorem names in rocq/theories/Props.

A property is "partial" as soon as one of its theorems ends in _partial or
_refuted, otherwise "proved".  Notes come from tools/notes.json."""
import json, os, re
root = os.path.dirname(os.path.dirname(os.path.abspath(__file__)))
props = [json.loads(l) for l in open(f"{root}/properties.jsonl") if l.strip()]
notes = json.load(open(f"{root}/tools/notes.json"))
thms = {}
d = f"{root}/rocq/theories/Props"
for f in sorted(os.listdir(d)):
    if f.endswith(".v"):
        for n in re.findall(r"^Theorem (C\d+_\w+)", open(f"{d}/{f}").read(), re.M):
            thms.setdefault(n.split("_")[0], []).append(n)
claims = []
for p in props:
    i = p["id"]
    t = thms.get(i, [])
    if not t:
        if notes.get(i, "").startswith("not_applicable"):
            claims.append({"property": i, "status": "not_applicable", "theorems": [], "note": notes[i]})
        continue
    part = any(n.endswith("_partial") or n.endswith("_refuted") for n in t)
    claims.append({"property": i, "status": "partial" if part else "proved",
                   "theorems": t, "note": notes.get(i, "")})
json.dump({"claims": claims}, open(f"{root}/MANIFEST.json", "w"), indent=1)
print(len(claims), "of", len(props), "missing:", [p["id"] for p in props if p["id"] not in {c["property"] for c in claims}])
