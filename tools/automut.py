#!/usr/bin/env python3
"""Random small edits of the model, to find definitions the theorems say too little about.

usage: automut.py SEED COUNT [FILE...]

Every edit changes one token of one definition of a model file: a comparison, an operator,
a constant, a string, one element of a list, one bound step.  Edits that do not typecheck are
skipped.  The dependent files are rebuilt until the first failure; edits nothing objects to
are printed as SURVIVED and have to be looked at by hand."""
import sys, os, re, random, json
sys.path.insert(0,os.path.dirname(os.path.abspath(__file__)))
import mutate as M
seed=int(sys.argv[1]); count=int(sys.argv[2]); only=sys.argv[3:]
R=random.Random(seed)
MODELS=[f for f in M.files() if re.search(r'_Model\.v$',f) or os.path.basename(f) in('Stk_Gens.v','Stk_Engine.v')]
if only: MODELS=[f for f in MODELS if os.path.basename(f) in only]
def strip(t):
    out=[];d=0;i=0
    while i<len(t):
        if t.startswith('(*',i): d+=1; out.append('  '); i+=2; continue
        if t.startswith('*)',i) and d: d-=1; out.append('  '); i+=2; continue
        out.append(t[i] if d==0 or t[i]=='\n' else ' '); i+=1
    return ''.join(out)
OPS=[(r'<\?','<=?'),(r'<=\?','<?'),(r'(?<=[\w)]) =\? ',' <? '),(r'\btrue\b','false'),(r'\bfalse\b','true'),(r'&&','||'),(r'\|\|','&&'),
 (r' \+ ',' - '),(r' - ',' + '),(r' \* ',' + '),(r'\bnegb ',' '),(r'(?<![\w.])(\d+)(?![\w.])',lambda m:str(int(m.group(1))+1)),
 (r'(?<![\w.])([1-9]\d*)(?![\w.])',lambda m:str(int(m.group(1))-1)),
 (r'"([^"]+)"',lambda m:'"'+m.group(1)[:-1]+('x' if m.group(1)[-1]!='x' else 'y')+'"'),
 (r'; [^;\[\]()]+(?=[;\]])',''),(r'(?<=\[)[^;\[\]()]+; ',''),(r';; [^;\n]+(?=;;)',' '),
 (r'let (\w+) := [^\n]* \1 in\n','\n'),(r'\bfst\b','snd'),(r'\bsnd\b','fst'),(r'\bZ\.min\b','Z.max'),(r'\bZ\.max\b','Z.min'),
 (r'Some (\w+)(?= *(?:\n|\)|end|else|in))','None'),(r'\bu64\b',''),(r'\bi64\b',''),(r'\bu32\b','')]
cands=[]
for f in MODELS:
    t=open(M.SRC+'/'+f).read(); u=strip(t)
    for n,k,s,e in M.items(u):
        if k not in('Definition','Fixpoint'): continue
        body=u[s:e]
        b0=body.find(':=')
        if b0<0: continue
        for p,r in OPS:
            for m in re.finditer(p,body[b0:]):
                a=s+b0+m.start(); b=s+b0+m.end()
                new=m.expand(r) if isinstance(r,str) and '\\' in r else (r if isinstance(r,str) else r(m))
                cands.append((f,n,a,b,new))
R.shuffle(cands)
# at most two edits for one definition
seen={}; pick=[]
for c in cands:
    if seen.get((c[0],c[1]),0)>=2: continue
    seen[(c[0],c[1])]=seen.get((c[0],c[1]),0)+1; pick.append(c)
done=0
for f,n,a,b,new in pick:
    if done>=count: break
    M.sync()
    path=M.W+'/'+f; t=open(M.SRC+'/'+f).read()
    t2=t[:a]+new+t[b:]
    t2=re.sub(r'(?m)^Print Assumptions.*$','',t2)
    open(path,'w').write(t2)
    rc,o=M.build(f)
    l0=t.rfind('\n',0,a)+1; l1=t.find('\n',b)
    edit=t[l0:l1].strip()+'  ==>  '+(t[l0:a]+new+t[b:l1]).strip()
    if rc!=0:
        continue
    done+=1
    fs=M.files(); dirty={f}; reqs={g:M.requires(g,M.W) for g in fs}; ch=True
    while ch:
        ch=False
        for g in fs:
            if g not in dirty and any(r in dirty for r in reqs[g]): dirty.add(g); ch=True
    bad=None
    for g in fs:
        if g not in dirty or g==f: continue
        rc,o=M.build(g)
        if rc!=0:
            mm=re.search(r'File "[^"]*", line (\d+), characters (\d+)-(\d+)',o)
            name='(timeout)'
            if mm:
                tt=open(M.W+'/'+g).read(); lines=tt.split('\n'); off=sum(len(l)+1 for l in lines[:int(mm.group(1))-1])+int(mm.group(2))
                it=[x for x in M.items(tt) if x[2]<=off<x[3]]
                name=it[-1][0] if it else '(toplevel)'
            bad=(g,name); break
    print(('killed ' if bad else 'SURVIVED ')+f[9:]+' '+n+' | '+edit.replace('\n',' ')[:200]+' | '+(bad[0][9:]+' '+bad[1] if bad else ''),flush=True)
    open(M.LOG,'a').write(json.dumps({'definition':n,'file':f[9:],'edit':edit,'claim_broken':'random edit: whatever is claimed about '+n,'first_failure':bad[1] if bad else None,'theorems_failed':[bad[1]] if bad else [],'theorems_tightened':[]})+'\n')
