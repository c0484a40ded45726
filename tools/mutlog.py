#!/usr/bin/env python3
"""Append the results of mutate.py to seeded/LOG.jsonl (names already logged are skipped).
usage: mutlog.py OUT.jsonl [TIGHTENED.json]   (TIGHTENED: {name: [theorems added or strengthened because of it]})"""
import sys, json, os
log = "/verif/seeded/LOG.jsonl"
have = {json.loads(l)["mutant"] for l in open(log)} if os.path.exists(log) else set()
tight = json.load(open(sys.argv[2])) if len(sys.argv) > 2 else {}
with open(log, "a") as o:
    for l in open(sys.argv[1]):
        r = json.loads(l)
        if "error" in r or r["name"] in have: continue
        have.add(r["name"])
        t = tight.get(r["name"], [])
        o.write(json.dumps({"mutant": r["name"], "definition": r["definition"], "edit": r["edit"], "claim": r["claim"],
            "failed_lemmas": r["lemmas"], "failed_theorems": r["theorems"], "survived": not r["lemmas"], "tightened": t}) + "\n")
