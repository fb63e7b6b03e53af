#!/usr/bin/env python3
"""Writes MANIFEST.json from the theorem names in theories/Properties*.v and the notes below."""
import re,glob,json
notes=json.load(open('/verif/tools/notes.json'))
ids=[json.loads(l)['id'] for l in open('/verif/properties.jsonl')]
th={i:[] for i in ids}
for f in sorted(glob.glob('/verif/rocq/theories/Properties*.v')):
    for m in re.finditer(r'^(?:Theorem)\s+((C\d\d)_[A-Za-z0-9_]+)',open(f).read(),re.M):
        if 'case' not in m.group(1): th[m.group(2)].append(m.group(1))
claims=[]
for i in ids:
    n=notes.get(i,{})
    if not th[i]: 
        print('no theorem',i); continue
    st=n.get('status','proved')
    if all(t.endswith('_partial') for t in th[i]): st='partial'
    claims.append({'property':i,'status':st,'theorems':th[i],'note':n.get('note','')})
json.dump({'claims':claims},open('/verif/MANIFEST.json','w'),indent=1)
