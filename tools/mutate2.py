#!/usr/bin/env python3
"""Faster mutation testing: builds only the property files of the claimed property and stops as soon as a theorem of the claimed property
depends (in the original dependency graph) on a statement whose proof no longer goes through.
usage: SRC=built-tree mutate2.py muts.json [logfile]; the claim of each mutant must start with the ids of the properties, e.g. "C52/C85: ..."."""
import json,sys,os,re,subprocess,shutil
SRC=os.environ.get('SRC','/tmp/mutsrc')
J=os.environ.get('J','3')
sys.setrecursionlimit(100000)
def sh(c,**k): return subprocess.run(c,shell=True,capture_output=True,text=True,**k)
def graph(work):
    deps={};th={}
    for fn in sorted(os.listdir(f'{work}/theories')):
        if not fn.endswith('.glob'): continue
        mod=fn[:-5]; defs=[];refs=[]
        for l in open(f'{work}/theories/{fn}',errors='replace'):
            w=l.split()
            if not w: continue
            if w[0] in('prf','def','ind','rec','inst','ax','abbrev') and len(w)>=4: defs.append((int(w[1].split(':')[0]),w[3]))
            elif l[0]=='R' and len(w)>=4 and ':' in w[0]: refs.append((int(w[0][1:].split(':')[0]),w[1],w[3]))
        defs.sort()
        for _,d in defs: deps.setdefault((mod,d),set())
        k=-1
        for pos,m2,nm in sorted(refs):
            while k+1<len(defs) and defs[k+1][0]<=pos: k+=1
            if k>=0 and m2.startswith('Verif.'): deps[(mod,defs[k][1])].add((m2[6:],nm))
        if 'Props' in mod:
            src=open(f'{work}/theories/{mod}.v').read()
            for _,d in defs:
                if re.match(r'C\d+_',d) and re.search(r'^Theorem '+d+r'\b',src,re.M): th[d]=mod
    return deps,th
deps,TH=graph(SRC)
def closure(x):
    seen=set();st=[x]
    while st:
        y=st.pop()
        if y in seen: continue
        seen.add(y); st+=deps.get(y,())
    return seen
CL={t:closure((m,t)) for t,m in TH.items()}
def hit(adm): return [t for t in TH if any((m,n) in CL[t] for m,n in adm)]
def run(mut,work):
    ids=re.match(r'[C0-9/ _]+',mut['claim']).group(0); ids=re.findall(r'C\d+',ids)
    targets=sorted({TH[t] for t in TH if t.split('_')[0] in ids})
    if not targets: return dict(error='no targets')
    if os.path.exists(work): shutil.rmtree(work)
    sh(f'cp -a {SRC} {work}')
    f=f'{work}/theories/{mut["file"]}'
    s=open(f).read()
    if s.count(mut['old'])!=1: return dict(error=f'pattern occurs {s.count(mut["old"])} times')
    open(f,'w').write(s.replace(mut['old'],mut['new']))
    adm=[];ex=[]
    tg=' '.join(f'theories/{t}.vo' for t in targets)
    sh(f'cd {work} && coq_makefile -f _CoqProject -o Makefile')
    for it in range(80):
        r=sh(f'cd {work} && timeout 2400 make -j{J} {tg} 2>&1')
        out=r.stdout
        m=re.search(r'File "\./theories/(\w+\.v)", line (\d+), characters[^\n]*\n(Error[^\n]*(?:\n[^\n]*)?)',out)
        if not m:
            if r.returncode!=0: return dict(error=out[-800:],admitted=[n for _,n in adm])
            break
        fn,line=m.group(1),int(m.group(2))
        p=f'{work}/theories/{fn}'
        L=open(p).read().split('\n')
        i=line-1
        while i>=0 and not re.match(r'\s*(Lemma|Theorem|Example|Corollary|Definition|Fixpoint|Remark|Fact|Local Lemma)\b',L[i]): i-=1
        name=re.match(r'\s*(?:Local )?(\w+)\s+(\w+)',L[i])
        kind,nm=name.group(1),name.group(2)
        txt='\n'.join(L[i:])
        q=re.search(r'Proof(?: using[^.]*)?\.',txt); e=re.search(r'\b(Qed|Defined)\.',txt)
        if kind in('Definition','Fixpoint') or not q or not e: return dict(error=f'{fn}:{line} {kind} {nm}: {m.group(3)}',admitted=[n for _,n in adm])
        stline=i+txt[:q.start()].count('\n')
        if line-1<stline: return dict(error=f'statement of {nm} no longer typechecks: {m.group(3)}',admitted=[n for _,n in adm])
        if kind=='Example': txt2=re.sub(r'(?s)^.*?(Qed|Defined)\.','',txt,1); ex.append(nm)
        else: txt2=txt[:q.start()]+'Admitted.'+txt[e.end():]; adm.append((fn[:-2],nm))
        open(p,'w').write('\n'.join(L[:i])+('\n' if i else '')+txt2)
        if not os.environ.get('FULL') and any(t.split('_')[0] in ids for t in hit(adm)): break
    return dict(admitted=[n for _,n in adm],failed=hit(adm),examples=ex)
muts=json.load(open(sys.argv[1])); log=sys.argv[2] if len(sys.argv)>2 else None
for k,m in enumerate(muts):
    try: r=run(m,f'/tmp/mut/w_{os.path.basename(sys.argv[1])[:-5]}')
    except Exception as exn: r=dict(error=repr(exn))
    print(json.dumps(dict(n=k,file=m['file'],definition=m['definition'],edit=m['edit'],claim=m['claim'],**r)),flush=True)
    if log and 'error' not in r:
        open(log,'a').write(json.dumps(dict(definition=m['definition'],file=m['file'],edit=m['edit'],claim_broken=m['claim'],theorems_failed=r['failed'],lemmas_failed=r['admitted'],examples_failed=r['examples'],theorems_tightened=m.get('tightened',[])))+'\n')
