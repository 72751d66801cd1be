#!/usr/bin/env python3
"""Systematic small edits of the model files: which ones does no proof notice?

usage: automut.py N [file ...]   at most N random edits per file; results in /tmp/automut.jsonl

Each edit changes one token of one definition in a scratch copy of /tmp/mutbase (built by
`mutate.py base`).  The dependents are rebuilt until something fails; an edit for which
everything still builds is a survivor and is looked at by hand."""
import sys, os, re, json, random, shutil, subprocess
sys.path.insert(0,os.path.dirname(os.path.abspath(__file__)))
import mutate
from mutate import BASE, coqc, files
W='/tmp/automutwork'
PAIRS=[(r'\btrue\b','false'),(r'\bfalse\b','true'),(r'&&','||'),(r'\|\|','&&'),(r'\bfst\b','snd'),(r'\bsnd\b','fst'),
 (r'\bx1\b','x2'),(r'\bx2\b','x1'),(r'\by1\b','y2'),(r'\by2\b','y1'),(r'\bre\b','im'),(r'\bim\b','re'),
 (r'(?<= )\+(?= )','-'),(r'(?<= )-(?= )','+'),(r'(?<= )\*(?= )','+'),(r'(?<=[ (])0(?=[ ),;%])','1'),(r'(?<=[ (])1(?=[ ),;%])','2'),
 (r'(?<=[ (])2(?=[ ),;%])','1'),(r'\bNat\.leb\b','Nat.ltb'),(r'\bNat\.ltb\b','Nat.leb'),(r'\bQltb\b','Qle_bool'),(r'\bQle_bool\b','Qltb'),
 (r'\bnegb\b',''),(r'\bZ\.leb\b','Z.ltb'),(r'\bZ\.ltb\b','Z.leb'),(r'<=\?','<?'),(r'<\?','<=?'),(r'=\?','<=?'),
 (r'\bzStart\b','zEnd'),(r'\bzEnd\b','zStart'),(r'\bValueError\b','TypeError'),(r'\bTypeError\b','ValueError'),(r'\bKeyError\b','ValueError'),
 (r'\bRuntimeError\b','ValueError'),(r'\bQmin\b','Qmax'),(r'\bQmax\b','Qmin'),(r'\bNone\b','(Some _)'),(r'\brev\b',''),(r'\bex[a-zA-Z]*\b =>','_ =>'),
 (r'\bleft\b','right'),(r'\bright\b','left'),(r'\bexistsb\b','forallb'),(r'\bforallb\b','existsb'),(r'\bfilter\b','(fun _ l => l)'),
 (r'\bandb\b','orb'),(r'\borb\b','andb'),(r'\bremovelast\b',''),(r'\btl\b',''),(r'\bOk tt\b','Err ValueError'),(r'"([a-zA-Z])',r'"x\1'),
 (r'(?<=[ (])(\d+) # (\d+)',r'\1 # 1\2'),(r'\bQfloor\b','Qceiling'),(r'\bQceiling\b','Qfloor'),(r'\bappend\b','(fun a b => a)'),(r'(?<= )\+\+ \[','++ tl ['),
 (r'(\w+) :: ',r''),(r'\bmap (\w+)\b',r'(fun l => l)'),(r'\bdset\b','(fun _ _ _ l => l)'),(r'\bddel\b','(fun _ _ l => l)')]
def strip(s):
    """positions inside comments are not edited"""
    out=[];d=0;i=0
    while i<len(s):
        if s[i:i+2]=='(*': d+=1; out.append('\0\0'); i+=2
        elif s[i:i+2]=='*)': d-=1; out.append('\0\0'); i+=2
        else: out.append(s[i] if d==0 else '\0'); i+=1
    return ''.join(out)
def edits(f):
    s=open(BASE+'/'+f).read(); t=strip(s); res=[]
    for m in re.finditer(r'^\s*(?:Definition|Fixpoint|with|Inductive|Record)\s+([\w\']+)(?=[^.])',t,re.M):
        kind=m.group(0).split()[0]
        if kind in('Inductive','Record'): continue
        e=re.compile(r'\.\s*$',re.M).search(t,m.end()); end=e.end() if e else len(t)
        body0=t.find(':=',m.end(),end)
        if body0<0: continue
        for pat,rep in PAIRS:
            for k in re.finditer(pat,t[body0:end]):
                a=body0+k.start(); b=body0+k.end()
                res.append((m.group(1),a,b,k.expand(rep),s.count('\n',0,a)+1))
    return s,res
def trial(f,s,e,dep):
    name,a,b,rep,line=e
    new=s[:a]+rep+s[b:]
    shutil.rmtree(W,ignore_errors=True); os.makedirs(W)
    aff={f}; grow=True
    while grow:
        grow=False
        for g in files():
            if g not in aff and any(x in aff for x in dep[g]): aff.add(g); grow=True
    for g in os.listdir(BASE):
        if g.endswith('.vo') and g[:-1] not in aff or g.endswith('.v') and g in aff: os.symlink(BASE+'/'+g,W+'/'+g)
    os.unlink(W+'/'+f); open(W+'/'+f,'w').write(new)
    done=set(files())-aff; todo=[g for g in files() if g in aff]
    first=True
    import concurrent.futures as cf
    rc,out=coqc(W,f)
    if rc: return 'invalid',f
    done.add(f); todo.remove(f)
    running={}
    with cf.ThreadPoolExecutor(3) as ex:
        bad=None
        while todo or running:
            if bad is None:
                for g in list(todo):
                    if len(running)<3 and all(x in done for x in dep[g] if x!=g):
                        todo.remove(g); running[ex.submit(coqc,W,g)]=g
            if not running: break
            fin,_=cf.wait(running,return_when=cf.FIRST_COMPLETED)
            for r in fin:
                g=running.pop(r); rc,out=r.result()
                if rc and bad is None: bad=(g,out[-300:])
                elif not rc: done.add(g)
            if bad: break
        if bad:
            subprocess.run(['pkill','-f','automutwork'])  # harmless if none
            return 'killed',bad[0]
    return 'SURVIVED',''
if __name__=='__main__':
    n=int(sys.argv[1]); fs=sys.argv[2:] or [g for g in os.listdir(BASE) if g.endswith('_Model.v')]
    dep=json.load(open(BASE+'/meta.json'))['dep']
    random.seed(7)
    for f in sorted(fs):
        s,es=edits(f); random.shuffle(es); es=es[:n]
        for e in es:
            r,w=trial(f,s,e,dep)
            rec=dict(file=f,line=e[4],**{'def':e[0]},old=s[max(0,e[1]-25):e[2]+25],new=s[max(0,e[1]-25):e[1]]+e[3]+s[e[2]:e[2]+25],result=r,at=w)
            with open('/tmp/automut.jsonl','a') as fh: fh.write(json.dumps(rec)+'\n')
            print(f,e[4],e[0],repr(s[e[1]:e[2]]),'->',repr(e[3]),r,w,flush=True)
