#!/usr/bin/env python3
"""Regenerates MANIFEST.json from tools/claims.txt and checks that every theorem exists.
claims.txt lines:  Cxx | status | theorem theorem ... | note"""
import json, re, glob, os, sys
os.chdir(os.path.join(os.path.dirname(os.path.abspath(__file__)), '..'))
names=set()
for f in glob.glob('rocq/theories/*.v'):
    names|=set(re.findall(r'^\s*(?:Theorem|Lemma|Corollary)\s+([A-Za-z0-9_\']+)',open(f).read(),re.M))
claims=[];bad=[]
for l in open('tools/claims.txt'):
    l=l.strip()
    if not l or l.startswith('#'): continue
    p,s,t,n=[x.strip() for x in l.split('|',3)]
    t=t.split()
    bad+= [x for x in t if x not in names]
    claims.append(dict(property=p,status=s,theorems=t,note=n))
if bad: sys.exit('missing theorems: %s'%bad)
props=[json.loads(l)['id'] for l in open('properties.jsonl')]
have={c['property'] for c in claims}
print('properties without claim:',[p for p in props if p not in have])
used={x for c in claims for x in c['theorems']}
allp=set()
for f in glob.glob('rocq/theories/Props_*.v'):
    allp|=set(re.findall(r'^Theorem\s+([A-Za-z0-9_\']+)',open(f).read(),re.M))
print('theorems in Props not in manifest:',sorted(allp-used))
json.dump({'claims':claims},open('MANIFEST.json','w'),indent=1)
