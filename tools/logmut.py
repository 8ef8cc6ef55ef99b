#!/usr/bin/env python3
"""Appends results of mutate.py (JSON lines) to seeded/LOG.jsonl.  Usage: logmut.py RESULTS ROUND [notes.json]
notes.json maps mutant names to lists of tightened theorems."""
import sys, json, os
here = os.path.dirname(os.path.abspath(__file__))
notes = json.load(open(sys.argv[3])) if len(sys.argv) > 3 else {}
with open(os.path.join(here, "..", "seeded", "LOG.jsonl"), "a") as out:
    for l in open(sys.argv[1]):
        d = json.loads(l)
        if "definition" not in d: continue
        if d.get("problem") and not d["theorems_failed"]: continue
        out.write(json.dumps({"round": sys.argv[2], "name": d["name"], "definition": d["definition"], "edit": d["edit"], "claim": d["claim"],
                              "theorems_failed": d["theorems_failed"], "failed_proofs": d["failed_proofs"],
                              "theorems_tightened": notes.get(d["name"], [])}, ensure_ascii=False) + "\n")
