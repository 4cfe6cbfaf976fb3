#!/usr/bin/env python3
"""Writes /verif/MANIFEST.json: theorem names are collected from
rocq/theories/Props_*.v by their Cxx_ prefix; status and note are below."""
import glob, json, os, re
here = os.path.dirname(os.path.abspath(__file__))
root = os.path.join(here, "..")
S = {}
def s(id, status, note):
    S[id] = (status, note)

exec(open(os.path.join(here, "manifest_notes.py")).read())

thms = {}
for f in sorted(glob.glob(os.path.join(root, "rocq/theories/Props_*.v"))):
    for m in re.finditer(r"^Theorem (C\d\d+)_(\w+)", open(f).read(), re.M):
        thms.setdefault(m.group(1), []).append(m.group(1) + "_" + m.group(2))
ids = [json.loads(l)["id"] for l in open(os.path.join(root, "properties.jsonl"))]
claims = []
for i in ids:
    if i not in S:
        if i in thms: print("no status for", i)
        continue
    st, note = S[i]
    if st != "not_applicable" and i not in thms: print("no theorems for", i)
    claims.append(dict(property=i, status=st, theorems=thms.get(i, []), note=note))
for i in thms:
    if i not in ids: print("theorem for unknown property", i)
json.dump(dict(claims=claims), open(os.path.join(root, "MANIFEST.json"), "w"), indent=1, ensure_ascii=False)
print(len(claims), "claims,", sum(len(c["theorems"]) for c in claims), "theorems; open:",
      [i for i in ids if i not in S])
