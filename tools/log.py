#!/usr/bin/env python3
"""Turn mutant descriptions and results into lines of seeded/LOG.jsonl.

usage: log.py LOG.jsonl MUTANTS.json RESULTS.jsonl [NOTES.json]

Lines already in the log (same id) are kept. NOTES.json maps an id to extra
fields, e.g. {"m010": {"theorems_tightened": ["..."], "note": "..."}}.
"""
import json, os, sys
log, mus, res = sys.argv[1:4]
notes = json.load(open(sys.argv[4])) if len(sys.argv) > 4 else {}
have = {}
if os.path.exists(log):
    for l in open(log): o = json.loads(l); have[o["id"]] = o
M = {m["id"]: m for m in json.load(open(mus))}
R = {}
for l in open(res): o = json.loads(l); R[o["id"]] = o
for i, r in sorted(R.items()):
    if i not in M: continue
    m = M[i]
    o = have.get(i, {})
    o.update(id=i, definition="%s.v: %s" % (m["file"], m["definition"]), edit=m["edit"], claim_broken=m["claim"])
    if "error" in r:
        if i not in notes: continue
        o["theorems_failed"] = []
    else: o["theorems_failed"] = r["failed"]
    o.setdefault("theorems_tightened", [])
    o.update(notes.get(i, {}))
    have[i] = o
with open(log, "w") as f:
    for i in sorted(have): f.write(json.dumps(have[i]) + "\n")
print(len(have), "entries;", "not killed:", [i for i in have if not have[i]["theorems_failed"]])
