#!/usr/bin/env python3
"""Writes ../MANIFEST.json and checks every theorem name against the sources.

A property's theorems are all theorems whose name starts with its id.  It is proved unless one of them ends in
_partial or _refuted (or the table below says otherwise)."""
import glob, json, os, re, sys

here = os.path.dirname(os.path.abspath(__file__))
root = os.path.join(here, "..")
props = [json.loads(l) for l in open(os.path.join(root, "properties.jsonl"))]

NOTES = {}
exec(open(os.path.join(here, "notes.py")).read())

names = []
for f in sorted(glob.glob(os.path.join(root, "rocq/theories/Properties/*.v"))):
    names += re.findall(r"^(?:Theorem|Corollary)\s+(\w+)", open(f).read(), re.M)

claims = []
missing = []
for p in props:
    i = p["id"]
    mine = [n for n in names if n.startswith(i + "_")]
    if not mine:
        if i in NOTES and NOTES[i][0] == "not_applicable":
            claims.append(dict(property=i, status="not_applicable", theorems=[], note=NOTES[i][1]))
        else:
            missing.append(i)
        continue
    status = "partial" if any(n.endswith("_partial") or n.endswith("_refuted") for n in mine) else "proved"
    note = NOTES.get(i, (None, ""))[1]
    if NOTES.get(i, (None,))[0]:
        status = NOTES[i][0]
    claims.append(dict(property=i, status=status, theorems=mine, note=note))
json.dump({"claims": claims}, open(os.path.join(root, "MANIFEST.json"), "w"), indent=1)
print("claims", len(claims), "theorems", len(names), "no theorem yet:", " ".join(missing))
bad = [n for n in names if not re.match(r"C\d\d+_", n)]
if bad:
    print("unattributed:", bad)
if len(set(names)) != len(names):
    print("duplicate names")
