#!/usr/bin/env python3
"""Print, for every property theorem, the axioms Print Assumptions lists (needs a finished build)."""
import re,subprocess,glob,os,collections,tempfile
os.chdir('/verif/rocq/theories')
groups=collections.OrderedDict()
for f in sorted(glob.glob('*_Props.v')):
    src=open(f).read()
    src=re.sub(r'\(\*.*?\*\)','',src,flags=re.S)
    names=re.findall(r'Print Assumptions (\w+)',src)
    with tempfile.TemporaryDirectory() as d:
        out=subprocess.run(['coqc','-Q','.','Verif','-o',d+'/'+f+'o',f],capture_output=True,text=True).stdout
    chunks=re.split(r'(?=^Closed under the global context|^Axioms:)',out,flags=re.M)[1:]
    assert len(chunks)==len(names),(f,len(chunks),len(names))
    for n,c in zip(names,chunks):
        ax=tuple(sorted(set(re.findall(r'^([A-Za-z][\w.]*)\s*:',c,re.M)) - {'Axioms'}))
        groups.setdefault(ax,[]).append(n)
for ax,ns in groups.items():
    print('###',', '.join(ax) or 'closed under the global context',len(ns)); print(' '.join(ns)); print()
