#!/usr/bin/env python3
"""Seeded-bug tests of the theorems, in a scratch copy outside /verif.

usage: mutate.py base            build the unchanged base in /tmp/mutbase
       mutate.py sync            bring files that are new or changed since then up to date
       mutate.py run FILE [id..] run the mutations of FILE (a JSON list), append to LOG

A mutation: {"id", "file", "def", "old", "new", "edit", "claim"}.  The edited model is
rebuilt; a lemma whose proof breaks is closed by an axiom `mutation_hole` (scratch copy
only!) so that the rest can be checked, and a theorem counts as failed iff it then depends
on that axiom (or does not compile)."""
import sys, os, re, json, subprocess, shutil, concurrent.futures as cf
ROOT='/verif'; BASE='/tmp/mutbase'; WORK='/tmp/mutwork'
HOLE='\nAxiom mutation_hole : forall P : Prop, P.\n'
def files():
    return [l.strip().split('/')[-1] for l in open(BASE+'/_CoqProject') if l.strip().endswith('.v')]
def coqc(d,f,extra=()):
    try:
        p=subprocess.run(['coqc','-q','-Q','.','Verif',*extra,f],cwd=d,capture_output=True,text=True,timeout=900)
        return p.returncode,p.stdout+p.stderr
    except subprocess.TimeoutExpired:
        return 1,'TIMEOUT'
def deps():
    out=subprocess.run(['coqdep','-Q','.','Verif']+files(),cwd=BASE,capture_output=True,text=True).stdout
    d={}
    for line in out.splitlines():
        m=re.match(r'(\S+)\.vo .*?: (.*)',line)
        if m and m.group(1)+'.v' in files():
            d[m.group(1)+'.v']=[x[:-1] for x in m.group(2).split() if x.endswith('.vo')]
    return d
def build(d,todo,dep,compile_one):
    """compile [todo] in dependency order, 4 at a time"""
    done=set(files())-set(todo); pending=list(todo); running={}
    with cf.ThreadPoolExecutor(4) as ex:
        while pending or running:
            for f in list(pending):
                if all(x in done for x in dep[f] if x!=f) and len(running)<4:
                    pending.remove(f); running[ex.submit(compile_one,f)]=f
            fin,_=cf.wait(running,return_when=cf.FIRST_COMPLETED)
            for r in fin:
                r.result(); done.add(running.pop(r))
def sync():
    shutil.copy(ROOT+'/rocq/_CoqProject',BASE); new=set()
    for f in files():
        t=open(ROOT+'/rocq/theories/'+f).read()+(HOLE if f=='PyBase.v' else '')
        if not os.path.exists(BASE+'/'+f) or open(BASE+'/'+f).read()!=t:
            open(BASE+'/'+f,'w').write(t); new.add(f)
    dep=deps(); using=json.load(open(BASE+'/meta.json'))['using']; grow=True
    while grow:
        grow=False
        for f in files():
            if f not in new and any(x in new for x in dep[f]): new.add(f); grow=True
    build(BASE,sorted(new),dep,lambda f: compile_base(f,using))
    json.dump({'dep':dep,'using':using},open(BASE+'/meta.json','w'))
    print(len(new),'files')
def compile_base(f,using):
    rc,out=coqc(BASE,f,['-set','Suggest Proof Using'])
    if rc: raise SystemExit(f+out)
    for m in re.finditer(r'The proof of\s+([\w\']+)\s+should start with one of the following\s+commands:(.*?)(?=The proof of|Axioms|Closed|$)',out,re.S):
        u=re.search(r'Proof using\s*(.*?)\.',m.group(2),re.S)
        if u: using[f+':'+m.group(1)]=' '.join(u.group(1).split())
def base():
    shutil.rmtree(BASE,ignore_errors=True); os.makedirs(BASE); shutil.copy(ROOT+'/rocq/_CoqProject',BASE)
    for f in files(): shutil.copy(ROOT+'/rocq/theories/'+f,BASE)
    with open(BASE+'/PyBase.v','a') as fh: fh.write(HOLE)
    dep=deps(); using={}
    build(BASE,files(),dep,lambda f: compile_base(f,using))
    json.dump({'dep':dep,'using':using},open(BASE+'/meta.json','w'))
    print(len(using),'section lemmas')
START=re.compile(r'^\s*(?:Local\s+|#\[\w+\]\s+)?(Lemma|Theorem|Example|Corollary|Fact|Let|Remark|Definition|Instance|Fixpoint|Inductive|Record)\s+([\w\']+)')
def patch(path,line,using,f):
    """close the proof around [line] by the hole; return the lemma name or None"""
    src=open(path).read().split('\n')
    i=line-1
    while i>=0 and not START.match(src[i]): i-=1
    if i<0: return None
    kind,name=START.match(src[i]).groups()
    k=i
    while k<len(src) and not re.search(r'\b(Qed|Defined)\.\s*$',src[k]): k+=1
    if k==len(src): return None
    text='\n'.join(src[i:k+1])
    m=re.search(r'\bProof\.',text)
    if not m: return None
    if 'Qed' not in src[k]: return None
    if text.count('\n',0,m.start())+i > line-1: return None   # error in the statement
    u=using.get(f+':'+name)
    head=text[:m.start()]+('Proof using %s.'%u if u else 'Proof.')
    if 'mutation_hole' in text: return None
    new=head+' intros; apply mutation_hole. Qed.' if False else head+' exact (mutation_hole _). Qed.'
    src[i:k+1]=[new]+['']*(k-i-new.count('\n'))
    open(path,'w').write('\n'.join(src))
    return name
def run(mut,meta,quiet=False):
    dep,using=meta['dep'],meta['using']
    shutil.rmtree(WORK,ignore_errors=True); shutil.copytree(BASE,WORK)
    edits=mut.get('edits') or [mut]
    changed=set()
    for e in edits:
        p=WORK+'/'+e['file']; s=open(p).read()
        if s.count(e['old'])<1: return {'error':'pattern not found in '+e['file']}
        if s.count(e['old'])>1 and not e.get('all'): return {'error':'pattern ambiguous in '+e['file']}
        open(p,'w').write(s.replace(e['old'],e['new'])); changed.add(e['file'])
    aff=set(changed); grow=True
    while grow:
        grow=False
        for f in files():
            if f not in aff and any(x in aff for x in dep[f]): aff.add(f); grow=True
    lemmas=[]; broken=[]; failed=[]
    def one(f):
        p=WORK+'/'+f
        for x in dep[f]:
            if x in broken: broken.append(f); return
        for _ in range(150):
            rc,out=coqc(WORK,f)
            if rc==0: break
            m=re.search(r'line (\d+), characters',out)
            n=patch(p,int(m.group(1)),using,f) if m and 'Error' in out else None
            if n is None:
                broken.append(f); 
                if not quiet: print('   broken',f,out[-600:])
                return
            lemmas.append(f[:-2]+'.'+n)
        if f.endswith('_Props.v'):
            names=re.findall(r'Print Assumptions (\w+)',open(p).read())
            chunks=re.split(r'(?=^Closed under the global context|^Axioms:)',out,flags=re.M)[1:]
            for n,c in zip(names,chunks):
                if 'mutation_hole' in c: failed.append(n)
    build(WORK,[f for f in files() if f in aff],dep,one)
    for f in broken:
        if f.endswith('_Props.v'): failed.extend(re.findall(r'Print Assumptions (\w+)',open(BASE+'/'+f).read()))
    return {'failed':sorted(set(failed)),'lemmas':sorted(lemmas),'broken':sorted(broken)}
if __name__=='__main__':
    if sys.argv[1]=='base': base(); sys.exit()
    if sys.argv[1]=='sync': sync(); sys.exit()
    meta=json.load(open(BASE+'/meta.json'))
    muts=json.load(open(sys.argv[2])); want=sys.argv[3:]
    for m in muts:
        if want and m['id'] not in want: continue
        r=run(m,meta)
        print(m['id'],m['claim'][:60],'=>',json.dumps(r)[:1500],flush=True)
        with open('/tmp/mut_results.jsonl','a') as fh: fh.write(json.dumps({**m,**r})+'\n')
