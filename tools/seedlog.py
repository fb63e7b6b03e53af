#!/usr/bin/env python3
"""Convert the mutation runner's output (one JSON object per wrong program) into seeded/LOG.jsonl.
usage: python3 tools/seedlog.py out1.jsonl [out2.jsonl ...]
'theorems_failed' are the property theorems that no longer have a proof in the edited copy: the proof
of the theorem, or of a lemma it rests on, is rejected."""
import json,sys,re,os
extra={}
p=os.path.join(os.path.dirname(__file__),'tightened.json')
if os.path.exists(p): extra=json.load(open(p))
rows=[]
for f in sys.argv[1:]:
    for l in open(f):
        d=json.loads(l)
        if 'error' in d: continue
        c=re.sub(r'^C\d\d(/C\d\d)*:? *','',d['claim'])
        rows.append({'id':d['id'],'definition':d['file']+': '+d['definition'],'edit':d['edit'],'claim_broken':c,
          'lemmas_rejected':d['broken_lemmas'],'theorems_failed':d['failed'],'theorems_still_proved':d['alive'],
          'theorems_tightened':extra.get(d['id'],{}).get('tightened',[]),'note':extra.get(d['id'],{}).get('note','')})
old=[]
o=os.path.join(os.path.dirname(__file__),'..','seeded','LOG.jsonl')
ids={r['id'] for r in rows}
if os.path.exists(o):
    old=[json.loads(l) for l in open(o) if l.strip()]
old=[r for r in old if r['id'] not in ids]
with open(o,'w') as g:
    for r in sorted(old+rows,key=lambda r:r['id']): g.write(json.dumps(r)+'\n')
