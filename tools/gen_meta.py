#!/usr/bin/env python3
"""Regenerates /verif/properties.jsonl and /verif/MANIFEST.json from the tables below."""
import json, os
ROOT = os.path.dirname(os.path.dirname(os.path.abspath(__file__)))
P = []   # (id, title, statement, quantifier, why, anchors)
def prop(id, title, statement, quantifier, why, anchors):
    P.append(dict(id=id, title=title, statement=statement, quantifier=quantifier,
                  why_tests_cant=why, anchors=anchors))

exec(open(os.path.join(ROOT, "tools", "props.py")).read())
with open(os.path.join(ROOT, "properties.jsonl"), "w") as f:
    for p in P: f.write(json.dumps(p) + "\n")
claims = []
exec(open(os.path.join(ROOT, "tools", "claims.py")).read())
with open(os.path.join(ROOT, "MANIFEST.json"), "w") as f:
    json.dump({"claims": claims}, f, indent=1); f.write("\n")
print(len(P), "properties", len(claims), "claims")
