#!/usr/bin/env python3
"""Regenerate MANIFEST.json: theorem names are collected from rocq/theories/P_*.v by property prefix."""
import json, re, glob, os
root = os.path.dirname(os.path.dirname(os.path.abspath(__file__)))
notes = json.load(open(os.path.join(root, "tools", "notes.json")))
thms = {}
for f in sorted(glob.glob(os.path.join(root, "rocq/theories/P_*.v"))):
    for m in re.finditer(r"^Theorem\s+((C\d+)_\w+)", open(f).read(), re.M):
        thms.setdefault(m.group(2), []).append(m.group(1))
claims = []
for line in open(os.path.join(root, "properties.jsonl")):
    pid = json.loads(line)["id"]
    if pid not in notes:
        continue
    status, note = notes[pid]
    claims.append({"property": pid, "status": status, "theorems": thms.get(pid, []), "note": note})
    if not thms.get(pid) and status != "not_applicable":
        print("no theorems for", pid)
json.dump({"claims": claims}, open(os.path.join(root, "MANIFEST.json"), "w"), indent=1)
print(len(claims), "claims,", sum(len(c["theorems"]) for c in claims), "theorems")
