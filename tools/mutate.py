#!/usr/bin/env python3
"""Mutation testing of the theorems, in a scratch copy outside /verif.
usage: mutate.py muts.json [logfile]
muts.json: list of {"file":"PfModel.v","definition":..,"old":..,"new":..,"claim":..,"edit":..}
Every edit is applied to a scratch copy; broken proofs are replaced by Admitted there (only there) and the property
theorems that then depend on an admitted statement are reported as failed."""
import json,sys,os,re,subprocess,shutil
SRC=os.environ.get('SRC','/verif/rocq')
def sh(c,**k): return subprocess.run(c,shell=True,capture_output=True,text=True,**k)
def run(mut,work):
    if os.path.exists(work): shutil.rmtree(work)
    sh(f'cp -a {SRC} {work}')
    f=f'{work}/theories/{mut["file"]}'
    s=open(f).read()
    if s.count(mut['old'])!=1: return dict(error=f'pattern occurs {s.count(mut["old"])} times')
    open(f,'w').write(s.replace(mut['old'],mut['new']))
    admitted=[]
    for it in range(60):
        r=sh(f'cd {work} && coq_makefile -f _CoqProject -o Makefile >/dev/null 2>&1; make -j2 2>&1',timeout=3000)
        out=r.stdout
        m=re.search(r'File "\./theories/(\w+\.v)", line (\d+), characters[^\n]*\n(Error[^\n]*(?:\n[^\n]*)?)',out)
        if not m:
            if r.returncode!=0: return dict(error=out[-800:],admitted=admitted)
            break
        fn,line=m.group(1),int(m.group(2))
        p=f'{work}/theories/{fn}'
        L=open(p).read().split('\n')
        # enclosing statement
        i=line-1
        while i>=0 and not re.match(r'\s*(Lemma|Theorem|Example|Corollary|Definition|Fixpoint|Remark|Fact|Local Lemma)\b',L[i]): i-=1
        name=re.match(r'\s*(?:Local )?(\w+)\s+(\w+)',L[i])
        kind,nm=name.group(1),name.group(2)
        txt='\n'.join(L[i:])
        q=re.search(r'Proof(?: using[^.]*)?\.',txt); e=re.search(r'\b(Qed|Defined)\.',txt)
        if kind in('Definition','Fixpoint') or not q or not e: return dict(error=f'{fn}:{line} {kind} {nm}: {m.group(3)}',admitted=admitted)
        stline=i+txt[:q.start()].count('\n')
        if line-1<stline: return dict(error=f'statement of {nm} no longer typechecks: {m.group(3)}',admitted=admitted)
        if kind=='Example': txt2=re.sub(r'(?s)^.*?(Qed|Defined)\.','',txt,1)
        else: txt2=txt[:q.start()]+'Admitted.'+txt[e.end():]
        open(p,'w').write('\n'.join(L[:i])+('\n' if i else '')+txt2)
        admitted.append(nm)
    # which property theorems depend on an admitted statement: dependency graph from the .glob files
    deps={};th=[]
    for fn in sorted(os.listdir(f'{work}/theories')):
        if not fn.endswith('.glob'): continue
        mod=fn[:-5]; defs=[];refs=[]
        for l in open(f'{work}/theories/{fn}',errors='replace'):
            w=l.split()
            if not w: continue
            if w[0] in('prf','def','ind','rec','inst','ax','abbrev') and len(w)>=4: defs.append((int(w[1].split(':')[0]),w[3]))
            elif l[0]=='R' and len(w)>=4 and ':' in w[0]: refs.append((int(w[0][1:].split(':')[0]),w[1],w[3]))
        defs.sort()
        for _,d in defs: deps.setdefault((mod,d),set())
        k=-1
        for pos,m2,nm in sorted(refs):
            while k+1<len(defs) and defs[k+1][0]<=pos: k+=1
            if k>=0 and m2.startswith('Verif.'): deps[(mod,defs[k][1])].add((m2[6:],nm))
        if 'Props' in mod: th+=[(mod,d) for _,d in defs if re.match(r'C\d+_',d) and re.search(r'^Theorem '+d+r'\b',open(f'{work}/theories/{mod}.v').read(),re.M)]
    adm=set(admitted)
    memo={}
    def bad(x):
        if x in memo: return memo[x]
        memo[x]=False
        r=x[1] in adm or any(bad(y) for y in deps.get(x,()))
        memo[x]=r
        return r
    failed=[]
    for t in th:
        memo={}
        if bad(t): failed.append(t[1])
    return dict(admitted=admitted,failed=failed)
muts=json.load(open(sys.argv[1])); log=sys.argv[2] if len(sys.argv)>2 else None
sys.setrecursionlimit(100000)
for k,m in enumerate(muts):
    try: r=run(m,f'/tmp/mut/w_{os.path.basename(sys.argv[1])[:-5]}')
    except Exception as ex: r=dict(error=repr(ex))
    print(json.dumps(dict(n=k,definition=m['definition'],edit=m['edit'],**r)),flush=True)
    if log and 'error' not in r:
        open(log,'a').write(json.dumps(dict(definition=m['definition'],file=m['file'],edit=m['edit'],claim_broken=m['claim'],theorems_failed=r['failed'],lemmas_failed=r['admitted'],theorems_tightened=m.get('tightened',[])))+'\n')
