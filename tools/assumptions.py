#!/usr/bin/env python3
"""Print the assumptions of every theorem named in MANIFEST.json (needs a built rocq/). Output: one line per theorem."""
import json, os, re, subprocess, tempfile
root = os.path.dirname(os.path.dirname(os.path.abspath(__file__)))
th = os.path.join(root, "rocq", "theories")
mods = [re.sub(r"theories/(.*)\.v", r"\1", l.strip()) for l in open(os.path.join(root, "rocq", "_CoqProject")) if l.strip().endswith(".v")]
where = {}
for m in mods:
    for x in re.findall(r"^\s*(?:Theorem|Lemma|Example|Corollary|Fact)\s+([A-Za-z0-9_']+)", open(os.path.join(th, m + ".v")).read(), re.M):
        where.setdefault(x, m)
names = [t for c in json.load(open(os.path.join(root, "MANIFEST.json")))["claims"] for t in c["theorems"]]
d = tempfile.mkdtemp()
f = os.path.join(d, "A.v")
with open(f, "w") as o:
    for m in sorted({where[n] for n in names}): o.write("From Verif Require %s.\n" % m)
    for n in names: o.write('Print Assumptions Verif.%s.%s.\n' % (where[n], n))
out = subprocess.run(["coqc", "-Q", th, "Verif", f], capture_output=True, text=True)
print(out.stderr, end="")
res = re.split(r"(?=Closed under the global context|Axioms:)", out.stdout.strip())
res = [r for r in res if r.strip()]
assert len(res) == len(names), (len(res), len(names))
for n, r in zip(names, res): print(n, ":", " ".join(r.split()))
