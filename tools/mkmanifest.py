#!/usr/bin/env python3
"""Rebuild MANIFEST.json from the theorem names in rocq/theories/P_*.v.
A theorem belongs to property Cnn when its name starts with "Cnn_"."""
import json, re, glob, os
root = os.path.dirname(os.path.dirname(os.path.abspath(__file__)))
notes = json.load(open(os.path.join(root, "tools", "notes.json")))
props = [json.loads(l) for l in open(os.path.join(root, "properties.jsonl")) if l.strip()]
thms = {}
for f in sorted(glob.glob(os.path.join(root, "rocq", "theories", "P_*.v"))):
    for m in re.finditer(r"^Theorem (C\d\d)(_\w+)", open(f).read(), re.M):
        thms.setdefault(m.group(1), []).append(m.group(1) + m.group(2))
claims = []
for p in props:
    i = p["id"]
    n = notes.get(i, {})
    ts = thms.get(i, [])
    st = n.get("status")
    if not ts:
        st = "partial" if st is None else st
    claims.append({"property": i, "status": st or "proved", "theorems": ts,
                   "note": n.get("note", "" if ts else "not proved yet")})
json.dump({"claims": claims}, open(os.path.join(root, "MANIFEST.json"), "w"), indent=1)
for c in claims:
    print(c["property"], c["status"], len(c["theorems"]))
