#!/usr/bin/env python3
"""Regenerates MANIFEST.json: theorem names are collected from C_*.v (a theorem
named Cnn_... belongs to property Cnn); notes are kept here."""
import json, os, re, glob
root = os.path.dirname(os.path.dirname(os.path.abspath(__file__)))
NOTES = {}
exec(open(os.path.join(root, "tools/notes.py")).read())
thms = {}
for f in sorted(glob.glob(os.path.join(root, "rocq/theories/C_*.v"))):
    for m in re.finditer(r"^Theorem (C\d\d+)(_\w+)", open(f).read(), re.M):
        thms.setdefault(m.group(1), []).append(m.group(1) + m.group(2))
claims = []
for line in open(os.path.join(root, "properties.jsonl")):
    p = json.loads(line)["id"]
    if p not in thms:
        continue
    t = thms[p]
    partial = any(x.endswith("_refuted") or x.endswith("_partial") for x in t)
    claims.append({"property": p, "status": "partial" if partial else "proved",
                   "theorems": t, "note": NOTES.get(p, "")})
json.dump({"claims": claims}, open(os.path.join(root, "MANIFEST.json"), "w"), indent=1)
ids = [json.loads(l)["id"] for l in open(os.path.join(root, "properties.jsonl"))]
print(len(claims), "claims; missing:", [i for i in ids if i not in thms])
