#!/usr/bin/env python3
"""Prints, for every theorem of MANIFEST.json, what Print Assumptions lists, grouped by axiom set (needs the built tree)."""
import json,re,subprocess,glob,os
man=json.load(open('/verif/MANIFEST.json'))
th=[t for c in man['claims'] for t in c['theorems']]
where={}
for f in glob.glob('/verif/rocq/theories/*Props*.v'):
    for m in re.finditer(r'^Theorem (C\d+_\w+)',open(f).read(),re.M): where[m.group(1)]=os.path.basename(f)[:-2]
src='From Verif Require '+' '.join(sorted(set(where.values())))+'.\n'
for t in th: src+=f'Goal True. idtac "@@{t}". Abort.\nPrint Assumptions {where[t]}.{t}.\n'
open('/tmp/ax.v','w').write(src)
o=subprocess.run('coqc -Q '+os.environ.get('BUILT','/verif/rocq/theories')+' Verif /tmp/ax.v',shell=True,capture_output=True,text=True)
if o.returncode: print(o.stderr[-2000:]); raise SystemExit(1)
groups={}
for part in o.stdout.split('@@')[1:]:
    name,_,rest=part.partition('\n')
    if 'Closed under the global context' in rest: ax=()
    else: ax=tuple(sorted(re.findall(r'^([A-Za-z_][\w.]*)\s*(?=:|\n\s*:)',rest,re.M)))
    ax=tuple(a for a in ax if a!='Axioms')
    groups.setdefault(ax,[]).append(name.strip())
out=''
for ax,ts in sorted(groups.items(),key=lambda x:len(x[0])):
    out+='* **'+('closed under the global context (no axioms)' if not ax else ', '.join('`%s`'%a for a in ax))+'** ('+str(len(ts))+' theorems): '+', '.join(ts)+'\n'
open('/verif/tools/axioms.md','w').write(out)
for ax,ts in groups.items(): print(ax,len(ts))
