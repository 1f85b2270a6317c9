#!/usr/bin/env python3
"""Regenerates MANIFEST.json from theorem names: a theorem Cnn_... belongs to property Cnn."""
import re,json,glob,os
root=os.path.dirname(os.path.abspath(__file__))
props=[json.loads(l)['id'] for l in open(root+'/properties.jsonl')]
th={}
for line in open(root+'/rocq/_CoqProject'):
    line=line.strip()
    if line.endswith('.v'):
        for m in re.finditer(r'^\s*Theorem\s+((C\d+)_\w+)',open(root+'/rocq/'+line).read(),re.M):
            th.setdefault(m.group(2),[]).append(m.group(1))
notes=json.load(open(root+'/notes.json')) if os.path.exists(root+'/notes.json') else {}
claims=[]
for p in props:
    if p in th:
        st='partial' if all(t.endswith('_partial') for t in th[p]) else 'proved'
        n=notes.get(p,{})
        claims.append({'property':p,'status':n.get('status',st),'theorems':th[p],'note':n.get('note','')})
json.dump({'claims':claims},open(root+'/MANIFEST.json','w'),indent=1)
print(len(claims),'of',len(props)); print('missing',[p for p in props if p not in th])
