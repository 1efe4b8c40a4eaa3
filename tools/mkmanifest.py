#!/usr/bin/env python3
"""Writes /verif/MANIFEST.json and checks that the theorem names exist."""
import json, re, glob
C={}
def c(pid, status, theorems, note=''): C[pid]=dict(property=pid,status=status,theorems=theorems.split(),note=note)
exec(open('/verif/tools/claims.py').read())
props=[json.loads(l)['id'] for l in open('/verif/properties.jsonl')]
names=set(); pa=set()
for f in glob.glob('/verif/rocq/theories/*Thm.v'):
    t=open(f).read()
    names|=set(re.findall(r'^(?:Theorem|Corollary)\s+([\w\']+)',t,re.M)); pa|=set(re.findall(r'Print Assumptions\s+([\w\']+)\.',t))
used=set()
for k,v in C.items():
    for t in v['theorems']:
        used.add(t)
        if t not in names: print('UNKNOWN',k,t)
for n in sorted(names-used): print('UNUSED',n)
for n in sorted(names-pa): print('NO PRINT',n)
for p in props:
    if p not in C: print('no claim yet',p)
json.dump({'claims':[C[p] for p in props if p in C]},open('/verif/MANIFEST.json','w'),indent=1)
