#!/usr/bin/env python3
"""Writes MANIFEST.json and checks that every theorem named exists in a T_ file."""
import json, re, os, sys, glob
ROOT = os.path.dirname(os.path.dirname(os.path.abspath(__file__)))
claims = []
def claim(p, status, thms, note):
    claims.append({"property": p, "status": status, "theorems": thms.split(), "note": note})
exec(open(os.path.join(ROOT, "tools", "claims.py")).read())
names = set()
for f in glob.glob(os.path.join(ROOT, "rocq/theories/T_*.v")):
    names |= set(re.findall(r"^Theorem\s+(\w+)", open(f).read(), re.M))
used = set(t for c in claims for t in c["theorems"])
bad = used - names
if bad: print("missing theorems:", sorted(bad)); sys.exit(1)
rest = names - used
if rest: print("theorems not in manifest:", sorted(rest))
props = [json.loads(l)["id"] for l in open(os.path.join(ROOT, "properties.jsonl")) if l.strip()]
print("no claim yet:", [p for p in props if p not in {c["property"] for c in claims}])
json.dump({"claims": claims}, open(os.path.join(ROOT, "MANIFEST.json"), "w"), indent=1)
