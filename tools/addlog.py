#!/usr/bin/env python3
"""usage: addlog.py results.jsonl -- append the attempts of a mutate.py run to seeded/LOG.jsonl (once each)."""
import json,sys,os
L='/verif/seeded/LOG.jsonl'
seen=set()
if os.path.exists(L):
    for l in open(L):
        if l.strip():
            d=json.loads(l); seen.add((d['definition'],d['edit']))
out=open(L,'a')
for l in open(sys.argv[1]):
    r=json.loads(l)
    if r['status']!='ok': print('skip',r['file'],r['edit'],r['status'][:300]); continue
    k=(r['file'][:-2]+'.'+r['def'],r['edit'])
    if k in seen: continue
    seen.add(k)
    d=dict(definition=k[0],edit=k[1],change={'from':r['old'],'to':r['new']},claim=r['claim'],theorems_failed=r['failed'],theorems_tightened=r.get('tightened',[]))
    if r.get('note'): d['note']=r['note']
    if r['missed']: d['survived']=r['missed']; print('MISSED',k,r['missed'])
    out.write(json.dumps(d)+'\n')
