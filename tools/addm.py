#!/usr/bin/env python3
"""addm.py Cxx status 'thm1,thm2' 'note' : insert or replace an entry of tools/manifest.py and regenerate MANIFEST.json."""
import sys, re, os, subprocess, json
p = os.path.join(os.path.dirname(os.path.abspath(__file__)), "manifest.py")
s = open(p).read()
c, st, th, note = sys.argv[1:5]
line = '"%s": ("%s", %s, %s),\n' % (c, st, json.dumps(th.split(",")), json.dumps(note))
s = re.sub(r'^"%s": .*\n' % c, '', s, flags=re.M)
i = s.index('}\nout')
s = s[:i] + line + s[i:]
open(p, "w").write(s)
subprocess.check_call([sys.executable, p])
