#!/usr/bin/env python3
"""Writes /verif/MANIFEST.json from the table below and checks that every
theorem name occurs in a *Props.v file."""
import json, os, re, sys
root = os.path.dirname(os.path.dirname(os.path.abspath(__file__)))
claims = []
def c(prop, status, theorems, note=""):
    claims.append({"property": prop, "status": status, "theorems": theorems.split(), "note": note})
exec(open(os.path.join(root, "tools", "claims.py")).read())
names = set()
d = os.path.join(root, "rocq", "theories")
for f in sorted(os.listdir(d)):
    if f.endswith(".v"):
        names |= set(re.findall(r"^\s*(?:Theorem|Lemma|Corollary)\s+(\w+)", open(os.path.join(d, f)).read(), re.M))
bad = [t for x in claims for t in x["theorems"] if t not in names]
if bad:
    sys.exit("unknown theorems: %s" % bad)
props = [json.loads(l)["id"] for l in open(os.path.join(root, "properties.jsonl")) if l.strip()]
missing = [p for p in props if p not in {x["property"] for x in claims}]
print("claims:", len(claims), "properties without claim:", missing)
claims.sort(key=lambda x: x["property"])
json.dump({"claims": claims}, open(os.path.join(root, "MANIFEST.json"), "w"), indent=1)
