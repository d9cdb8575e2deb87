#!/usr/bin/env python3
"""Regenerate MANIFEST.json from the theorem names in rocq/theories/T_*.v.

A property is "proved" when it has theorems and is not listed in NOTES with another status."""
import json, re, glob, os
root = os.path.join(os.path.dirname(__file__), "..")
props = [json.loads(l) for l in open(os.path.join(root, "properties.jsonl"))]
notes = json.load(open(os.path.join(root, "tools", "notes.json")))
thms = {}
for f in sorted(glob.glob(os.path.join(root, "rocq/theories/T_*.v"))):
    for m in re.finditer(r"^(?:Theorem|Corollary)\s+(C\d+)_(\w+)", open(f).read(), re.M):
        thms.setdefault(m.group(1), []).append(m.group(1) + "_" + m.group(2))
claims = []
for p in props:
    i = p["id"]
    t = thms.get(i, [])
    if not t:
        continue
    n = notes.get(i, {})
    status = n.get("status", "partial" if all(x.endswith(("_partial", "_refuted")) for x in t) else "proved")
    claims.append({"property": i, "status": status, "theorems": t, "note": n.get("note", p["title"])})
json.dump({"claims": claims}, open(os.path.join(root, "MANIFEST.json"), "w"), indent=1)
print(len(claims), "claims,", sum(len(c["theorems"]) for c in claims), "theorems; without theorems:",
      [p["id"] for p in props if p["id"] not in thms])
