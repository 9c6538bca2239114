#!/usr/bin/env python3
"""addt.py Cxx thm1,thm2 [note suffix]: append theorems to an existing claim (via addm.py)."""
import json, subprocess, sys
c = next(c for c in json.load(open('/verif/MANIFEST.json'))['claims'] if c['property'] == sys.argv[1])
ts = c['theorems'] + [t for t in sys.argv[2].split(',') if t not in c['theorems']]
note = c['note'] + (' ' + sys.argv[3] if len(sys.argv) > 3 else '')
subprocess.run(['python3', '/verif/tools/addm.py', sys.argv[1], c['status'], ','.join(ts), note], check=True)
