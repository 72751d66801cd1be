#!/usr/bin/env python3
"""Check that every definition of a model file has a comment citing lines of /repo, and that the lines exist."""
import glob, os, re
R = '/repo/pyzeal'
files = {}
for d, _, fs in os.walk(R):
    for f in fs:
        if f.endswith('.py'):
            files.setdefault(f, []).append(len(open(os.path.join(d, f)).read().split('\n')))
bad = total = 0
here = os.path.join(os.path.dirname(__file__), '..', 'rocq', 'theories')
for f in sorted(glob.glob(os.path.join(here, '*_Model.v'))):
    s = open(f).read()
    for m in re.finditer(r'^ *(Definition|Fixpoint|Inductive|Record)\s+(\w+)', s, re.M):
        total += 1
        pre = s[:m.start()].rstrip()
        c = pre[pre.rfind('(*'):] if pre.endswith('*)') else ''
        if not re.search(r'\.py|\d', c):
            bad += 1
            print(os.path.basename(f), m.group(2), 'no citation')
    for m in re.finditer(r'([a-z_]+\.py):(\d+)(?:-(\d+))?', s):
        n = max(files.get(m.group(1), [0]))
        if int(m.group(3) or m.group(2)) > n:
            bad += 1
            print(os.path.basename(f), m.group(0), 'beyond the file')
print(total, 'definitions,', bad, 'problems')
