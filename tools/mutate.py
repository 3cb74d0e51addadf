#!/usr/bin/env python3
"""Mutation tester.  usage: mutate.py mutations.json
Each mutation: {file, definition, old, new, edit, claim}.  In a scratch copy the
text [old] is replaced by [new]; every lemma whose proof then fails is admitted
IN THE SCRATCH COPY ONLY so the rest can be tried; finally the references
recorded in the .glob files tell which property theorems rest on a lemma that failed."""
import json,os,re,subprocess,sys,shutil,glob,time
SRC='/verif/rocq'; DST='/tmp/mut/rocq'
def sh(c,t=3000):
    return subprocess.run(c,shell=True,capture_output=True,text=True,timeout=t)
DECL=re.compile(r'^\s*(Theorem|Lemma|Example|Corollary|Fact|Remark)\s+(\w+)')
def reset():
    sh(f'rm -rf {DST}; mkdir -p {DST}; cp -a {SRC}/_CoqProject {SRC}/theories {DST}/')
    sh(f'cd {DST} && coq_makefile -f _CoqProject -o Makefile')
def enclosing(fn,line):
    L=open(fn).read().split('\n')
    for i in range(line-1,-1,-1):
        m=DECL.match(L[i])
        if m: return i,m.group(2),m.group(1)
    return None
def admit(fn,i):
    """replace the proof starting at declaration line i with Admitted"""
    L=open(fn).read().split('\n')
    j=i
    while not re.search(r'\b(Proof\b|Proof\.)',L[j]): j+=1
    k=j
    while not re.search(r'\b(Qed|Defined)\.',L[k]): k+=1
    pre=L[j][:L[j].index('Proof')]
    L[j:k+1]=[pre+'Proof. Admitted.']+['']*(k-j)
    open(fn,'w').write('\n'.join(L))
def dependents(failed,th):
    """property theorems whose proof refers, directly or through other lemmas, to a failed lemma (from the .glob files)"""
    refs={}
    for g in glob.glob(f'{DST}/theories/*.glob'):
        mod=os.path.basename(g)[:-5]; cur=None
        for line in open(g):
            w=line.split()
            if not w: continue
            if re.match(r'^R\d+:\d+$',w[0]):
                if cur and len(w)>=5 and w[1].startswith('Verif.'): refs[cur].add((w[1][6:],w[3]))
            elif w[0] in ('prf','thm','def','ax','inst','coe') and len(w)>=4:
                cur=(mod,w[3]); refs.setdefault(cur,set())
    bad=set(failed); ch=True
    while ch:
        ch=False
        for k,v in refs.items():
            if k not in bad and v & bad: bad.add(k); ch=True
    return sorted(t for t,b in th.items() if (b,t) in bad)
def run(m):
    reset()
    fn=f'{DST}/theories/{m["file"]}.v'
    s=open(fn).read()
    if m['old'] not in s: return {'error':'old text not found'}
    s2=s.replace(m['old'],m['new'],1) if not m.get('all') else s.replace(m['old'],m['new'])
    open(fn,'w').write(s2)
    failed=[];kinds={}
    for it in range(60):
        r=sh(f'cd {DST} && timeout 2400 make -k -j2 2>&1')
        errs=re.findall(r'File "\./theories/(\w+)\.v", line (\d+), characters [^\n]*\n(?=Error|[^\n]*Error)',r.stdout)
        if not errs:
            if r.returncode!=0: return {'error':r.stdout[-1500:],'failed':failed}
            break
        done=set()
        for f,l in errs:
            if f in done: continue
            done.add(f)
            e=enclosing(f'{DST}/theories/{f}.v',int(l))
            if e is None: return {'error':f'no enclosing lemma {f}:{l} '+r.stdout[-800:],'failed':failed}
            i,name,k=e
            if (f,name) in failed: return {'error':f'error outside proof? {f}:{name} '+r.stdout[-800:],'failed':failed}
            failed.append((f,name))
            try: admit(f'{DST}/theories/{f}.v',i)
            except Exception as ex: return {'error':f'admit {f}:{name} {ex}','failed':failed}
    props=[]
    th={}
    for p in sorted(glob.glob(f'{DST}/theories/Prop*.v')):
        b=os.path.basename(p)[:-2]
        for t in re.findall(r'^Theorem\s+(\w+)',open(p).read(),re.M): th[t]=b
    if failed:
        props=dependents(failed,th)
    return {'lemmas':[f'{f}.{n}' for f,n in failed],'theorems':props}
if __name__=='__main__':
    ms=json.load(open(sys.argv[1]))
    for m in ms:
        t=time.time()
        r=run(m)
        out={'definition':f'{m["file"]}.{m["definition"]}','edit':m['edit'],'claim_broken':m['claim'],
             'theorems_failed':r.get('theorems',[]),'lemmas_failed':r.get('lemmas',r.get('failed')),'error':r.get('error'),'sec':round(time.time()-t)}
        print(json.dumps(out),flush=True)
