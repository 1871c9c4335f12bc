#!/usr/bin/env python3
"""Collect theorem names per property from Prop_*.v and write MANIFEST.json."""
import glob, json, re, os
root = os.path.dirname(os.path.dirname(os.path.abspath(__file__)))
notes = json.load(open(os.path.join(root, "tools", "notes.json")))
thms = {}
for f in sorted(glob.glob(os.path.join(root, "rocq/theories/Prop_*.v"))):
    for m in re.finditer(r"^Theorem (C\d\d_\w+)", open(f).read(), re.M):
        thms.setdefault(m.group(1)[:3], []).append(m.group(1))
claims = []
for line in open(os.path.join(root, "properties.jsonl")):
    pid = json.loads(line)["id"]
    n = notes.get(pid, {})
    if pid not in thms and "status" not in n:
        continue
    status = n.get("status") or ("partial" if any(t.endswith("_partial") for t in thms[pid]) else "proved")
    claims.append({"property": pid, "status": status, "theorems": thms.get(pid, []), "note": n.get("note", "")})
with open(os.path.join(root, "MANIFEST.json"), "w") as o:
    o.write('{"claims": [\n' + ",\n".join(" " + json.dumps(c) for c in claims) + "\n]}\n")
print(len(claims), "claims", sum(len(c["theorems"]) for c in claims), "theorems")
