#!/usr/bin/env python3
"""Write MANIFEST.json from properties.jsonl, the P*.v files and notes.json."""
import glob, json, os, re

root = os.path.dirname(os.path.dirname(os.path.abspath(__file__)))
notes = json.load(open(os.path.join(root, "tools", "notes.json")))
thms = {}
for f in sorted(glob.glob(os.path.join(root, "rocq/theories/P*.v"))):
    for name in re.findall(r"^Theorem ((C\d+)_\w+)", open(f).read(), re.M):
        thms.setdefault(name[1], []).append(name[0])
claims = []
for line in open(os.path.join(root, "properties.jsonl")):
    p = json.loads(line)["id"]
    ts = thms.get(p, [])
    n = notes.get(p, {})
    if not ts:
        continue
    status = n.get("status", "partial" if any(t.endswith("_partial") for t in ts) else "proved")
    claims.append({"property": p, "status": status, "theorems": ts, "note": n.get("note", "")})
json.dump({"claims": claims}, open(os.path.join(root, "MANIFEST.json"), "w"), indent=1)
print(len(claims), "claims;", [p for p in (json.loads(l)["id"] for l in open(os.path.join(root, "properties.jsonl"))) if p not in thms], "without theorem")
