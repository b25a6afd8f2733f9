#!/usr/bin/env python3
"""Collect the results of mutate.py (/tmp/mut/*.json) into seeded/LOG.jsonl.  Existing lines are kept."""
import json, glob, re, os
LOG = "/verif/seeded/LOG.jsonl"
seen = set()
if os.path.exists(LOG):
    for l in open(LOG):
        if l.strip(): seen.add(json.loads(l)["id"])
def definition(e):
    s = open("/verif/rocq/theories/%s.v" % e["file"]).read()
    i = s.find(e["old"])
    if i < 0: return e["file"]
    last = None
    for m in re.finditer(r"^\s*(?:Definition|Fixpoint|Record|Inductive)\s+([\w']+)", s[:i + len(e["old"])], re.M): last = m.group(1)
    return "%s.%s" % (e["file"], last)
out = open(LOG, "a"); n = 0
for f in sorted(glob.glob("/tmp/mut/*.json"), key=os.path.getmtime):
    d = json.load(open(f))
    if isinstance(d, list) or d["id"] in seen: continue
    clean = lambda l: [x.rstrip("*?") for x in l]
    rec = {"id": d["id"], "definition": ", ".join(definition(e) for e in d["edits"]),
           "edit": [{"from": e["old"], "to": e["new"]} for e in d["edits"]], "claim": d["claim"],
           "theorems_failed": sorted(set(clean(d["failed_directly"]) + clean(d["failed_via"]))),
           "proofs_broken": d["broken_proofs"][:20], "theorems_tightened": [], "remark": ""}
    out.write(json.dumps(rec) + "\n"); n += 1
print(n, "lines added")
