#!/usr/bin/env python3
"""Try wrong programs against the theorems.

usage: mutate.py MUTANTS.json   (list of {"definition","file","old","new","claim"})

Every mutant is applied to a scratch copy of /verif/rocq (outside /verif). The copy is
rebuilt file by file; a failing lemma is admitted *in the scratch copy only* so that the
build goes on and all failures are seen. A property theorem counts as failed when it or
anything it uses failed. One line per mutant is appended to /verif/seeded/LOG.jsonl."""
import sys, json, os, re, shutil, subprocess, collections
SRC=os.environ.get('MUTSRC','/verif/rocq'); W=os.environ.get('MUTDIR','/root/scratch/mut/w')
LOG=os.environ.get('MUTLOG','/verif/seeded/LOG.jsonl')
ITEM=re.compile(r'^\s*(?:Local\s+|Global\s+|#\[[^\]]*\]\s*)?(Theorem|Lemma|Corollary|Example|Fact|Definition|Fixpoint|Record|Inductive|Instance|Ltac|Function|CoInductive|Program Definition)\s+([A-Za-z_][\w\']*)',re.M)
def files():
    return [l.strip() for l in open(SRC+'/_CoqProject') if l.strip().endswith('.v')]
def requires(f,base):
    t=open(base+'/'+f).read(); r=[]
    for m in re.finditer(r'From Verif Require\s+(?:Import\s+|Export\s+)?([^.]*)\.',t): r+=m.group(1).split()
    return ['theories/%s.v'%x for x in r]
def items(t):
    ms=list(ITEM.finditer(t)); out=[]
    for i,m in enumerate(ms):
        e=ms[i+1].start() if i+1<len(ms) else len(t)
        out.append((m.group(2),m.group(1),m.start(),e))
    return out
def sync():
    os.makedirs(W,exist_ok=True)
    subprocess.run(['rsync','-a','--delete',SRC+'/',W+'/'],check=True) if shutil.which('rsync') else (shutil.rmtree(W),shutil.copytree(SRC,W))
    for f in files():
        t=open(W+'/'+f).read(); u=re.sub(r'(?m)^Print Assumptions.*$','',t)
        if u!=t: open(W+'/'+f,'w').write(u)
def build(f,timeout=900):
    try:
        p=subprocess.run(['coqc','-Q','theories','Verif',f],cwd=W,capture_output=True,text=True,timeout=timeout)
        return p.returncode,p.stdout+p.stderr
    except subprocess.TimeoutExpired: return 124,'timeout'
def run(m):
    sync()
    path=W+'/theories/'+m['file']; t=open(path).read()
    if t.count(m['old'])!=1: return None,'old text occurs %d times'%t.count(m['old'])
    open(path,'w').write(t.replace(m['old'],m['new']))
    fs=files(); dirty={'theories/'+m['file']}
    failed=[]; 
    reqs={f:requires(f,W) for f in fs}
    ch=True
    while ch:
        ch=False
        for f in fs:
            if f not in dirty and any(r in dirty for r in reqs[f]): dirty.add(f); ch=True
    for f in fs:
        if f not in dirty: continue
        for attempt in range(25):
            rc,o=build(f)
            if rc==0: break
            mm=re.search(r'File "[^"]*", line (\d+), characters (\d+)-(\d+)',o)
            if rc==124 or not mm: failed.append((f,'(whole file)',o[-200:])); break
            t=open(W+'/'+f).read(); off=0
            lines=t.split('\n'); off=sum(len(l)+1 for l in lines[:int(mm.group(1))-1])+int(mm.group(2))
            it=[x for x in items(t) if x[2]<=off<x[3]]
            if not it: failed.append((f,'(toplevel)',o[-200:])); break
            n,k,s,e=it[-1]; failed.append((f,n,''))
            body=t[s:e]
            q=re.search(r'\bProof\b',body)
            if k in('Theorem','Lemma','Corollary','Example','Fact') and q:
                if 'Qed.' not in body and 'Defined.' not in body: body=t[s:]; e=len(t)
                if 'Qed.' not in body and 'Defined.' not in body: failed.append((f,'(statement)',o[-200:])); break
                z=body.index('Qed.') if 'Qed.' in body else body.index('Defined.')
                zz=body.index('.',z)+1
                t=t[:s]+body[:q.start()]+'Proof. Admitted.'+body[zz:]+t[e:]
            else:
                break
            open(W+'/'+f,'w').write(t)
        else: failed.append((f,'(too many)',''))
    # dependency closure by names
    bad={n for _,n,_ in failed}
    allit=[]
    badfiles={f for f,n,_ in failed if n.startswith('(')}
    for f in fs:
        t=open(SRC+'/'+f).read()
        for n,k,s,e in items(t): allit.append((n,k,f,set(re.findall(r"[A-Za-z_][\w']*",t[s:e]))-{n}))
    proofs={n for n,k,f,i in allit if k in('Theorem','Lemma','Corollary','Fact','Example')}
    ch=True
    while ch:
        ch=False
        for n,k,f,ids in allit:
            if n in bad: continue
            if (k in('Theorem','Lemma','Corollary','Fact') and ids & bad & proofs) : bad.add(n); ch=True
    thms=[n for n,k,f,ids in allit if re.match(r'C\d\d',n) and k=='Theorem' and n in bad]
    exs=[n for n,k,f,ids in allit if k=='Example' and n in {x for _,x,_ in failed}]
    return {'definition':m['definition'],'edit':m['old'].strip()+'  ==>  '+m['new'].strip(),'claim_broken':m['claim'],
      'theorems_failed':thms,'lemmas_failed':[n for _,n,_ in failed if not re.match(r'C\d\d',n)],'examples_failed':exs,'theorems_tightened':m.get('tightened',[])},None
if __name__=='__main__':
    for m in json.load(open(sys.argv[1])):
        r,err=run(m)
        if err: print('SKIP',m['definition'],err); continue
        print(('SURVIVED ' if not r['theorems_failed'] else 'killed ')+m['definition'],'|',m['old'].strip()[:40],'|',len(r['theorems_failed']),r['lemmas_failed'][:4],flush=True)
        open(LOG,'a').write(json.dumps(r)+'\n')
