#!/usr/bin/env python3
"""Regenerates MANIFEST.json from the table below and checks that each theorem exists."""
import json, re, pathlib
root = pathlib.Path(__file__).resolve().parent.parent
src = "\n".join(p.read_text() for p in sorted((root/"rocq/theories").glob("Props*.v")))
have = set(re.findall(r"^Theorem\s+([A-Za-z0-9_']+)", src, re.M))
claims = []
def c(pid, status, note, *thms):
    for t in thms:
        if t not in have: raise SystemExit(f"{pid}: no theorem {t}")
    claims.append({"property": pid, "status": status, "theorems": list(thms), "note": note})
exec((root/"scripts/claims.py").read_text())
claims.sort(key=lambda x: x["property"])
ids = [json.loads(l)["id"] for l in (root/"properties.jsonl").read_text().splitlines()]
missing = [i for i in ids if i not in {x["property"] for x in claims}]
used = {t for x in claims for t in x["theorems"]}
print("properties without claim:", missing)
print("theorems not in manifest:", sorted(have-used))
(root/"MANIFEST.json").write_text(json.dumps({"claims": claims}, indent=1)+"\n")
