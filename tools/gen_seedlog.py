#!/usr/bin/env python3
"""Turn the raw records of tools/seed.py runs (one JSON object per mutant) into seeded/LOG.jsonl.
usage: gen_seedlog.py RAW.jsonl [ANNOTATIONS.json]
ANNOTATIONS maps "<definition>|<new text>" to {"tightened": [...], "note": "..."}."""
import json, os, re, sys
raw = [json.loads(l) for l in open(sys.argv[1]) if l.strip()]
ann = json.load(open(sys.argv[2])) if len(sys.argv) > 2 else {}
here = os.path.dirname(os.path.dirname(os.path.abspath(__file__)))
seen, out = set(), []
for r in raw:
    if r.get("error"): continue
    key = (r["file"], r["old"], r["new"])
    if key in seen:
        continue
    seen.add(key)
    a = ann.get(r["def"] + "|" + r["new"], {})
    rec = {"definition": r["file"] + ":" + r["def"], "edit": r["old"] + "  ==>  " + r["new"],
           "claim_broken": r["claim"], "theorems_failed": r["theorems_failed"] or a.get("failed", []),
           "theorems_tightened": a.get("tightened", [])}
    if a.get("note"): rec["note"] = a["note"]
    out.append(rec)
with open(os.path.join(here, "seeded", "LOG.jsonl"), "w") as f:
    for r in out: f.write(json.dumps(r) + "\n")
print(len(out), "records")
for r in out:
    cs = re.findall(r"C\d+", r["claim_broken"])
    if not any(t.startswith(c + "_") for c in cs for t in r["theorems_failed"]):
        if not r.get("note"): print("CHECK", r["definition"], r["claim_broken"], "| failed:", r["theorems_failed"][:6], r.get("note", ""))
