#!/usr/bin/env python3
"""Generate MANIFEST.json; checks that every theorem named exists in a T_*.v file."""
import json,re,glob
C=[]
def c(p,status,ths,note): C.append({"property":p,"status":status,"theorems":ths.split(),"note":note})
exec(open('/verif/tools/claims.py').read())
names=set()
for f in glob.glob('/verif/rocq/theories/*.v'):
    names|=set(re.findall(r'^(?:Theorem|Lemma|Corollary)\s+(\w+)',open(f).read(),re.M))
for x in C:
    for t in x['theorems']:
        if t not in names: print('MISSING',x['property'],t)
json.dump({"claims":sorted(C,key=lambda x:x['property'])},open('/verif/MANIFEST.json','w'),indent=1)
props=[json.loads(l)['id'] for l in open('/verif/properties.jsonl')]
print('uncovered:',[p for p in props if p not in {x['property'] for x in C}])
