#!/usr/bin/env python3
"""Generates properties.jsonl and MANIFEST.json from one table (keeps the two in step).

Usage: python3 tools/gen_meta.py   (run in /verif)
Each entry: id, title, statement, quantifier, why_tests_cant, anchors, and for the
manifest: status, theorems, note.
"""
import json, glob, os
P = []
CLAIM = {}
def claim(id, status, note=""):
    CLAIM[id] = (status, note)
def prop(id, title, statement, quantifier, why, anchors, status=None, theorems=(), note=""):
    P.append(dict(id=id, title=title, statement=statement, quantifier=quantifier,
                  why_tests_cant=why, anchors=list(anchors), status=status,
                  theorems=list(theorems), note=note))
here = os.path.dirname(os.path.abspath(__file__))
for f in sorted(glob.glob(os.path.join(here, "meta", "*.py"))):
    exec(compile(open(f).read(), f, "exec"))
# theorem names are read from the Prop_*.v files listed in _CoqProject
import re
root = os.path.dirname(here)
TH = {}
for line in open(os.path.join(root, "rocq", "_CoqProject")):
    line = line.strip()
    if os.path.basename(line).startswith("Prop_"):
        for m in re.finditer(r"^Theorem\s+((C\d+)_\w+)", open(os.path.join(root, "rocq", line)).read(), re.M):
            TH.setdefault(m.group(2), []).append(m.group(1))
for p in P:
    st, note = CLAIM.get(p["id"], (None, ""))
    p["theorems"] = TH.pop(p["id"], [])
    if st == "not_applicable":
        p["status"] = st
    elif p["theorems"]:
        p["status"] = st or ("partial" if any(t.endswith("_partial") for t in p["theorems"]) else "proved")
    p["note"] = note
    if st and not p["theorems"] and st != "not_applicable":
        print("warning: claim without theorems", p["id"])
assert not TH, TH
P.sort(key=lambda p: int(p["id"][1:]))
ids = [p["id"] for p in P]
assert len(set(ids)) == len(ids), "duplicate ids"
root = os.path.dirname(here)
with open(os.path.join(root, "properties.jsonl"), "w") as fh:
    for p in P:
        fh.write(json.dumps({k: p[k] for k in ("id", "title", "statement", "quantifier", "why_tests_cant", "anchors")}) + "\n")
claims = [dict(property=p["id"], status=p["status"], theorems=p["theorems"], note=p["note"]) for p in P if p["status"]]
with open(os.path.join(root, "MANIFEST.json"), "w") as fh:
    json.dump({"claims": claims}, fh, indent=1)
    fh.write("\n")
print(len(P), "properties,", len(claims), "claims")
