#!/usr/bin/env python3
"""Rebuild MANIFEST.json from the theorem names in rocq/theories/P_*.v and tools/notes.json."""
import json, glob, re, os
root = os.path.dirname(os.path.dirname(os.path.abspath(__file__)))
notes = json.load(open(os.path.join(root, "tools/notes.json")))
props = [json.loads(l)["id"] for l in open(os.path.join(root, "properties.jsonl")) if l.strip()]
thms = {}
for f in sorted(glob.glob(os.path.join(root, "rocq/theories/P_*.v"))):
    for m in re.finditer(r"^Theorem ((?:C\d+_)+)(\w+)", open(f).read(), re.M):
        for c in re.findall(r"C\d+", m.group(1)):
            thms.setdefault(c, []).append(m.group(1) + m.group(2))
claims = []
for p in props:
    ts = thms.get(p, [])
    n = notes.get(p, {})
    if not ts and not n:
        continue
    status = n.get("status") or ("partial" if any(t.endswith("_partial") for t in ts) else "proved")
    claims.append({"property": p, "status": status, "theorems": ts, "note": n.get("note", "")})
json.dump({"claims": claims}, open(os.path.join(root, "MANIFEST.json"), "w"), indent=1)
missing = [p for p in props if p not in {c["property"] for c in claims}]
print(len(claims), "claims;", "missing:", " ".join(missing))
