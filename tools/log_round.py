#!/usr/bin/env python3
"""Appends the results of a round of mutate.py to seeded/LOG.jsonl.  Usage: log_round.py OUT.jsonl [TIGHTENED.json]
TIGHTENED.json maps the id of a mutant to the list of theorems that were added or strengthened because of it."""
import sys, json, os
root = os.path.join(os.path.dirname(os.path.abspath(__file__)), "..")
tight = json.load(open(sys.argv[2])) if len(sys.argv) > 2 else {}
log = os.path.join(root, "seeded", "LOG.jsonl")
have = {json.loads(l)["id"] for l in open(log) if l.strip()}
with open(log, "a") as f:
    for l in open(sys.argv[1]):
        d = json.loads(l)
        if d["id"] in have: continue
        f.write(json.dumps({"id": d["id"], "definition": "%s (%s)" % (d["definition"], d["file"]),
            "edit": {"old": d["old"], "new": d["new"]}, "claim": d["claim"], "failed_lemmas": d["failed"],
            "failed_theorems": d["theorems"], "tightened": tight.get(d["id"], []),
            "note": d.get("comment", "") or d.get("note", "")}) + "\n")
