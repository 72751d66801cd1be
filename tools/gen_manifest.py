#!/usr/bin/env python3
"""MANIFEST.json from the theorem names: Cnn_* in *_Props.v belongs to property Cnn."""
import re, json, glob, os
root = os.path.dirname(os.path.dirname(os.path.abspath(__file__)))
thms = {}
for f in sorted(glob.glob(root + '/rocq/theories/*_Props.v')):
    for m in re.finditer(r'^\s*Theorem ((C\d+)_\w+)', open(f).read(), re.M):
        thms.setdefault(m.group(2), []).append(m.group(1))
notes = json.load(open(root + '/tools/notes.json'))
claims = []
for line in open(root + '/properties.jsonl'):
    p = json.loads(line)['id']
    n = notes.get(p, {})
    t = thms.get(p, [])
    if t:
        status = 'partial' if any(x.endswith('_partial') for x in t) else 'proved'
    else:
        status = n.get('status')
        if status is None:
            continue
    claims.append({'property': p, 'status': n.get('status', status), 'theorems': t, 'note': n.get('note', '')})
json.dump({'claims': claims}, open(root + '/MANIFEST.json', 'w'), indent=1)
print(len(claims), 'claims', sum(len(c['theorems']) for c in claims), 'theorems')
