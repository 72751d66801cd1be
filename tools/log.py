#!/usr/bin/env python3
"""seeded/LOG.jsonl from the results of mutate.py (/tmp/mut_results.jsonl)."""
import json, os
root = os.path.dirname(os.path.dirname(os.path.abspath(__file__)))
tight = json.load(open(root + '/seeded/tightened.json'))   # id -> {"tightened": [...], "why": ...}
out, seen = [], set()
for src in ('/tmp/mut_results.jsonl',):
    for l in open(src):
        d = json.loads(l)
        if 'error' in d or d['id'] in seen: continue
        seen.add(d['id'])
        t = tight.get(d['id'], {})
        e = {'id': d['id'], 'definition': d.get('def', '') + ' (' + d.get('file', 'several files') + ')', 'edit': d['edit'],
             'old': d.get('old'), 'new': d.get('new'), 'claim': d['claim'],
             'failed': d['failed'] if d['failed'] else [], 'tightened': t.get('tightened', [])}
        if 'why' in t: e['note'] = t['why']
        out.append(e)
open(root + '/seeded/LOG.jsonl', 'w').write(''.join(json.dumps(e) + '\n' for e in out))
print(len(out), 'log lines')
