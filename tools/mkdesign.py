import json,re
m=json.load(open('/verif/MANIFEST.json'))
out=open('/verif/tools/design.md').read()
out+="## 6. Findings about the code\n\nStatements a user would expect that are false of the code, each with a machine-checked witness:\n\n"
for c in sorted(m['claims'],key=lambda c:c['property']):
    r=[t for t in c['theorems'] if t.endswith('_refuted')]
    if r: out+="* %s (%s): %s\n"%(c['property'],', '.join('`%s`'%t for t in r),c['note'])
out+="\n## 7. What `Print Assumptions` lists for each theorem\n\n(Regenerate with `python3 tools/axioms.py` in a built tree.)\n\n"
out+=open('/verif/tools/axioms.md').read()
open('/verif/DESIGN.md','w').write(out)
