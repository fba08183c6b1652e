#!/usr/bin/env python3
"""Write MANIFEST.json.  Each claim lists its theorems; every name must exist in rocq/theories."""
import json, os, re, sys

ROOT = os.path.dirname(os.path.dirname(os.path.abspath(__file__)))
CLAIMS = []

def claim(prop, status, theorems, note):
    CLAIMS.append({"property": prop, "status": status, "theorems": theorems.split(), "note": note})

exec(open(os.path.join(ROOT, "tools", "claims.py")).read())

src = ""
for f in sorted(os.listdir(os.path.join(ROOT, "rocq", "theories"))):
    if f.endswith(".v"):
        src += open(os.path.join(ROOT, "rocq", "theories", f)).read()
known = set(re.findall(r"^\s*(?:Theorem|Lemma|Corollary|Example)\s+(\w+)", src, re.M))
ids = [json.loads(l)["id"] for l in open(os.path.join(ROOT, "properties.jsonl"))]
bad = [t for c in CLAIMS for t in c["theorems"] if t not in known]
missing = [i for i in ids if i not in [c["property"] for c in CLAIMS]]
unknown = [c["property"] for c in CLAIMS if c["property"] not in ids]
if bad: print("unknown theorems:", bad)
if missing: print("properties without claim:", missing)
if unknown: print("claims without property:", unknown)
json.dump({"claims": CLAIMS}, open(os.path.join(ROOT, "MANIFEST.json"), "w"), indent=1)
print(len(CLAIMS), "claims")
sys.exit(1 if bad or unknown else 0)
