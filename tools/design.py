#!/usr/bin/env python3
"""Rewrite the generated sections of DESIGN.md from properties.jsonl, MANIFEST.json and tools/plan.json."""
import json, os, re
root = os.path.dirname(os.path.dirname(os.path.abspath(__file__)))
P = [json.loads(l) for l in open(os.path.join(root, "properties.jsonl"))]
M = {c["property"]: c for c in json.load(open(os.path.join(root, "MANIFEST.json")))["claims"]}
plan = json.load(open(os.path.join(root, "tools", "plan.json")))
out = ["| id | property | model and specification | how it is proved | status |", "|---|---|---|---|---|"]
for p in P:
    i = p["id"]; m, h = plan.get(i, ["", ""])
    out.append("| %s | %s | %s | %s | %s |" % (i, p["title"], m, h, M[i]["status"] if i in M else "planned"))
d = open(os.path.join(root, "DESIGN.md")).read()
d = re.sub(r"<!-- plan -->.*?<!-- /plan -->", lambda _: "<!-- plan -->\n" + "\n".join(out) + "\n<!-- /plan -->", d, flags=re.S)
n = sum(len(M[p["id"]]["theorems"]) for p in P if p["id"] in M)
d = re.sub(r"all \d+ theorems", "all %d theorems" % n, d)
open(os.path.join(root, "DESIGN.md"), "w").write(d)
