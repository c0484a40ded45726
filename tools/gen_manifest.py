#!/usr/bin/env python3
"""Writes MANIFEST.json; checks that every theorem named exists in rocq/theories."""
import json, os, re, glob
here = os.path.dirname(os.path.abspath(__file__))
root = os.path.join(here, "..")
src = "\n".join(open(f).read() for f in glob.glob(os.path.join(root, "rocq/theories/*.v")))
claims = []
def c(p, status, thms, note):
    for t in thms:
        assert re.search(r"^Theorem %s\b" % re.escape(t), src, re.M), t
    claims.append({"property": p, "status": status, "theorems": thms, "note": note})

exec(open(os.path.join(here, "claims.py")).read())
ids = [json.loads(l)["id"] for l in open(os.path.join(root, "properties.jsonl"))]
done = {x["property"] for x in claims}
missing = [i for i in ids if i not in done]
listed = {t for x in claims for t in x["theorems"]}
for t in re.findall(r"^Theorem (\w+)", src, re.M):
    if t not in listed: print("not in manifest:", t)
claims.sort(key=lambda x: x["property"])
json.dump({"claims": claims}, open(os.path.join(root, "MANIFEST.json"), "w"), indent=1)
print(len(claims), "claims; without a theorem yet:", " ".join(missing))
