#!/usr/bin/env python3
"""Single source for properties.jsonl and MANIFEST.json (run from /verif: python3 tools/props.py)."""
import json, os
P = []
def prop(id, title, statement, quantifier, why, anchors, status="planned", theorems=(), note=""):
    P.append(dict(id=id, title=title, statement=statement, quantifier=quantifier,
                  why_tests_cant=why, anchors=anchors, status=status, theorems=list(theorems), note=note))

exec(open(os.path.join(os.path.dirname(__file__), "props_data.py")).read())

here = os.path.dirname(os.path.dirname(os.path.abspath(__file__)))
# theorems are collected from the P_*.v files: "Theorem C08_name" belongs to C08
import re, glob
THMS = {}
for fn in sorted(glob.glob(os.path.join(here, "rocq/theories/P_*.v"))):
    for m in re.finditer(r"^Theorem (C\d\d+)_(\w+)", open(fn).read(), re.M):
        THMS.setdefault(m.group(1), []).append(m.group(1) + "_" + m.group(2))
exec(open(os.path.join(os.path.dirname(os.path.abspath(__file__)), "notes.py")).read())
for p in P:
    t = THMS.get(p["id"], [])
    if t:
        p["theorems"] = t
        p["status"] = "partial" if any(x.endswith("_partial") for x in t) else "proved"
    if p["id"] in NOTES: p["note"] = NOTES[p["id"]]
    if p["id"] in STATUS: p["status"] = STATUS[p["id"]]
with open(os.path.join(here, "properties.jsonl"), "w") as f:
    for p in P:
        f.write(json.dumps({k: p[k] for k in ("id","title","statement","quantifier","why_tests_cant","anchors")}) + "\n")
with open(os.path.join(here, "MANIFEST.json"), "w") as f:
    cl = [dict(property=p["id"], status=p["status"], theorems=p["theorems"], note=p["note"])
          for p in P if p["status"] != "planned"]
    json.dump({"claims": cl}, f, indent=1); f.write("\n")
ids = [p["id"] for p in P]
assert len(ids) == len(set(ids))
print(len(P), "properties,", sum(p["status"] != "planned" for p in P), "claimed")
