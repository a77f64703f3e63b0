#!/usr/bin/env python3
"""MANIFEST.json from theorem names in *Props.v (prefix Cnn_) + status/notes below."""
import re,glob,json
T={}
for f in sorted(glob.glob('/verif/rocq/theories/*Props*.v')):
    for m in re.finditer(r'^Theorem (C\d+)_(\w+)',open(f).read(),re.M):
        T.setdefault(m.group(1),[]).append(m.group(1)+'_'+m.group(2))
import importlib.util,os
notes=json.load(open('/verif/tools/notes.json'))
claims=[]
for l in open('/verif/properties.jsonl'):
    i=json.loads(l)['id']
    n=notes.get(i,{})
    if i not in T and n.get('status')!='not_applicable':
        continue
    ts=T.get(i,[])
    st=n.get('status') or ('partial' if any(t.endswith('_partial') or t.endswith('_refuted') for t in ts) else 'proved')
    claims.append(dict(property=i,status=st,theorems=ts,note=n.get('note','')))
json.dump(dict(claims=claims),open('/verif/MANIFEST.json','w'),indent=1)
print(len(claims),'claims',sum(len(c['theorems']) for c in claims),'theorems', [c['property'] for c in claims if c['status']=='partial'])
allp=[json.loads(l)['id'] for l in open('/verif/properties.jsonl')]
print('missing',[i for i in allp if i not in [c['property'] for c in claims]])
