#!/usr/bin/env python3
"""Single source for /verif/properties.jsonl and /verif/MANIFEST.json.

Each entry: (id, title, statement, quantifier, why_tests_cant, anchors, status, theorems, note)
Run from anywhere: python3 /verif/tools/props.py
"""
import json, os
ROOT = os.path.dirname(os.path.dirname(os.path.abspath(__file__)))
P = []
def prop(id, title, statement, quantifier, why, anchors, status=None, theorems=(), note=""):
    P.append(dict(id=id, title=title, statement=statement, quantifier=quantifier,
                  why_tests_cant=why, anchors=list(anchors),
                  status=status, theorems=list(theorems), note=note))
exec(open(os.path.join(ROOT, "tools", "props_data.py")).read())
def claim(id, status, theorems, note=""):
    p = [q for q in P if q["id"] == id]
    assert len(p) == 1, id
    assert p[0]["status"] is None, id
    p[0].update(status=status, theorems=list(theorems), note=note)
exec(open(os.path.join(ROOT, "tools", "claims_data.py")).read())
with open(os.path.join(ROOT, "properties.jsonl"), "w") as f:
    for p in P:
        f.write(json.dumps({k: p[k] for k in ("id","title","statement","quantifier","why_tests_cant","anchors")}, ensure_ascii=False) + "\n")
claims = [dict(property=p["id"], status=p["status"], theorems=p["theorems"], note=p["note"]) for p in P if p["status"]]
with open(os.path.join(ROOT, "MANIFEST.json"), "w") as f:
    json.dump({"claims": claims}, f, indent=1, ensure_ascii=False); f.write("\n")
ids = [p["id"] for p in P]
assert len(ids) == len(set(ids)), "duplicate ids"
print(len(P), "properties,", len(claims), "claims;", "todo:", [p["id"] for p in P if not p["status"]])
