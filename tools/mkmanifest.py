#!/usr/bin/env python3
"""Regenerate MANIFEST.json from the Theorem names in rocq/theories/Props_*.v and tools/notes.json."""
import re,json,glob,os
root=os.path.dirname(os.path.dirname(os.path.abspath(__file__)))
th={}
for f in sorted(glob.glob(root+'/rocq/theories/Props_*.v')):
    for m in re.finditer(r'^Theorem (C(\d\d+)_\w+)',open(f).read(),re.M):
        th.setdefault('C'+m.group(2),[]).append(m.group(1))
notes=json.load(open(root+'/tools/notes.json'))
claims=[]
for l in open(root+'/properties.jsonl'):
    p=json.loads(l)['id']
    ts=th.get(p,[])
    if not ts:
        print('no theorems for',p); 
        continue
    part=any(t.endswith('_partial') or t.endswith('_refuted') for t in ts)
    claims.append({"property":p,"status":"partial" if part else "proved","theorems":ts,"note":notes.get(p,"")})
json.dump({"claims":claims},open(root+'/MANIFEST.json','w'),indent=1)
print(len(claims),'claims',sum(c['status']=='proved' for c in claims),'proved')
