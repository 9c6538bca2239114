#!/usr/bin/env python3
"""Append the results of a batch of mutants (run in a scratch copy) to seeded/LOG.jsonl.
usage: log.py results.json [notes.json]   notes: {"def|edit": {"tightened": [...], "note": "..."}}"""
import json, sys
res = json.load(open(sys.argv[1]))
notes = json.load(open(sys.argv[2])) if len(sys.argv) > 2 else {}
with open('/verif/seeded/LOG.jsonl', 'a') as f:
    for r in res:
        if str(r['result']).startswith('BAD'):
            continue
        failed = r['result'] if isinstance(r['result'], list) else []
        n = notes.get(r['def'] + '|' + r['edit'], {})
        f.write(json.dumps({
            'definition': r['file'] + ': ' + r['def'], 'edit': r['edit'],
            'change': {'old': r['old'], 'new': r['new']}, 'claim_broken': r['claim'],
            'theorems_failed': failed, 'survived': not failed,
            'theorems_tightened': n.get('tightened', []), 'note': n.get('note', '')}) + '\n')
