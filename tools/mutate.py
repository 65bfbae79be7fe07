#!/usr/bin/env python3
"""Test the theorems against wrong programs, in scratch copies outside /verif.

usage: mutate.py mutants.json [results.jsonl]   (MUT_SRC: compiled theories to mutate)
mutants.json: list of {"file": "Aggregator.v", "def": ..., "old": ..., "new": ..., "edit": ..., "claim": ["C01"]}
For each mutant: edit the model, rebuild all dependent files; a proof that fails is replaced by
Admitted (in the scratch copy) so that the build goes on. A theorem of the manifest counts as
failed if its own proof fails or Print Assumptions shows one of those lemmas."""
import json, os, re, shutil, subprocess, sys
from concurrent.futures import ThreadPoolExecutor
from queue import Queue
SRC=os.environ.get('MUT_SRC','/verif/rocq/theories'); TMP='/tmp/mut'
MAN=json.load(open(os.environ.get('MUT_MAN','/verif/MANIFEST.json')))
CLAIM={t:c['property'] for c in MAN['claims'] for t in c['theorems']}

def deps():
    out=subprocess.run(['coqdep','-Q',SRC,'Verif']+[os.path.join(SRC,f) for f in sorted(os.listdir(SRC)) if f.endswith('.v')],capture_output=True,text=True).stdout
    d={}
    for line in out.splitlines():
        if '.vo ' not in line.split(':')[0]+' ': continue
        l,r=line.split(':',1)
        n=os.path.basename(l.split()[0])
        if not n.endswith('.vo'): continue
        d[n[:-3]]={os.path.basename(x)[:-3] for x in r.split() if x.endswith('.vo')}
    return d
DEPS=deps()
WHERE={}
for f in os.listdir(SRC):
    if f.startswith('Props') and f.endswith('.v'):
        for m in re.finditer(r'^\s*(?:Theorem|Lemma|Corollary) (\w+)',open(os.path.join(SRC,f)).read(),re.M): WHERE.setdefault(m.group(1),f[:-2])

# files rebuilt for a model (all dependent files take too long for the low ones)
SCOPE={'Aggregator':'Aggregator.*|Spec_Aggregation|Props_Aggregation.*',
 'Reader':'Reader.*|Spec_Reader|Props_Reader.*','Config':'Config.*|Spec_Config|Props_Config.*','Context':'Context.*|Spec_Context|Props_Context.*',
 'Writers':'Writers.*|Spec_Writers|Props_Writers.*','Strings':'Strings.*|Spec_Strings|Props_Strings.*','Converter':'Manip.*|Props_Manip.*|Spec_Convert',
 'GribInterp':'GribInterp.*|Spec_GribInterp|Props_GribInterp.*','Scipy':'Scipy.*|Spec_Scipy|Props_Scipy.*',
 'Adw':'Adw.*|Spec_Adw|Props_Adw.*|Props_Cdd.*','Bilinear':'Bilinear.*|Spec_Bilinear|Props_Bilinear.*',
 'Setup':'.*','Target':'.*','Controller':'.*','PyStr':'PyStr.*|Strings.*|Spec_Strings|Props_Strings.*'}
def order(root,scope=None):
    need=set(); todo=[root]
    while todo:
        x=todo.pop()
        for n,ds in DEPS.items():
            if x in ds and n not in need and re.fullmatch(scope or SCOPE.get(root,'.*'),n): need.add(n); todo.append(n)
    res=[]; left=set(need)
    while left:
        for n in sorted(left):
            if not (DEPS[n]&left): res.append(n); left.discard(n); break
    return res

def coqc(d,n,tmo=240):
    try:
        p=subprocess.run(['coqc','-set','Default Timeout=150','-Q',d,'Verif',os.path.join(d,n+'.v')],capture_output=True,text=True,timeout=tmo)
        return p.returncode,p.stdout,p.stderr
    except subprocess.TimeoutExpired:
        return 1,'','TIMEOUT'
STMT=re.compile(r'(?:Theorem|Lemma|Example|Corollary|Fact|Remark|Definition|Instance|Fixpoint)\s+([\w\']+)')
def admit(path,err):
    m=re.search(r'line (\d+), characters (\d+)-(\d+)',err)
    if not m: return None,'no location: '+err[-300:]
    s=open(path).read(); lines=s.split('\n')
    off=sum(len(x.encode())+1 for x in lines[:int(m.group(1))-1])+int(m.group(2))
    b=s.encode()
    pre=b[:off+1].decode(errors='ignore')
    i=pre.rfind('Proof.')
    if i<0: return None,'no proof'
    mid=pre[i:]
    if re.search(r'\b(Qed|Defined|Admitted|Abort)\.',mid[:-1] if False else mid): 
        # error at Qed itself is fine
        if not re.search(r'\b(Qed|Defined)\.?$',mid) : return None,'outside a proof: '+err[-300:]
    mm=re.compile(r'\b(Qed|Defined)\.').search(s,i)
    if not mm: return None,'no end'
    name=STMT.findall(s[:i])[-1]
    s=s[:i]+'Proof. Admitted.'+s[mm.end():]
    open(path,'w').write(s)
    return name,None

def run(mu,d):
    for f in os.listdir(SRC):
        if f.endswith('.v') or f.endswith('.vo'): shutil.copy2(os.path.join(SRC,f),os.path.join(d,f))
    p=os.path.join(d,mu['file']); s=open(p).read()
    if s.count(mu['old'])!=1: return dict(mu,status='bad edit (%d matches)'%s.count(mu['old']))
    open(p,'w').write(s.replace(mu['old'],mu['new']))
    root=mu['file'][:-2]
    rc,o,e=coqc(d,root)
    if rc: return dict(mu,status='model does not compile: '+e[-300:])
    admitted=[]; broken=[]
    for n in order(root,mu.get('scope')):
        if any(x in broken for x in DEPS[n]): broken.append(n); continue
        for k in range(60):
            rc,o,e=coqc(d,n)
            if rc==0: break
            if 'inconsistent assumptions' in e: return dict(mu,status='scope too small: '+n)
            name,why=admit(os.path.join(d,n+'.v'),e)
            if name is None: broken.append(n); admitted.append(n+': '+why[:200]); break
            admitted.append(n+'.'+name)
        else: broken.append(n); admitted.append(n+': too many')
    names={a.split('.')[-1] for a in admitted}
    failed=[]
    aff=set(order(root,mu.get('scope')))
    for t,f in WHERE.items():
        if t in CLAIM and f in broken: failed.append(t)
    chk=[t for t,f in WHERE.items() if t in CLAIM and f in aff and f not in broken]
    if chk:
        body='From Verif Require '+' '.join(sorted({WHERE[t] for t in chk}))+'.\n'
        for t in chk: body+='Goal True. idtac "THM %s". Abort.\nPrint Assumptions Verif.%s.%s.\n'%(t,WHERE[t],t)
        open(os.path.join(d,'Zcheck.v'),'w').write(body)
        rc,o,e=coqc(d,'Zcheck')
        if rc: admitted.append('Zcheck: '+e[-300:])
        cur=None
        for line in o.splitlines():
            if line.startswith('THM '): cur=line[4:].strip(); continue
            m=re.match(r'([\w\'.]+)\s*(:|$)',line)
            if m and cur:
                a=m.group(1).split('.')[-1]
                if (a in names or a==cur) and cur not in failed: failed.append(cur)
    return dict(mu,status='ok',admitted=admitted,failed=sorted(failed),failed_claims=sorted({CLAIM[t] for t in failed}),missed=[c for c in mu['claim'] if c not in {CLAIM[t] for t in failed}])

def main():
    mus=json.load(open(sys.argv[1])); out=open(sys.argv[2] if len(sys.argv)>2 else '/tmp/mut/results.jsonl','a')
    q=Queue()
    for i in range(int(os.environ.get('MUT_JOBS','4'))):
        d=os.path.join(TMP,'w%s_%d'%(os.path.basename(sys.argv[1])[:-5],i)); shutil.rmtree(d,ignore_errors=True); os.makedirs(d); q.put(d)
    def job(mu):
        d=q.get()
        try: r=run(mu,d)
        except Exception as ex: r=dict(mu,status='exception %r'%ex)
        finally: q.put(d)
        out.write(json.dumps(r)+'\n'); out.flush()
        print(r['file'],'|',r['edit'],'|',r['status'],'| failed:',' '.join(r.get('failed',[])),'| MISSED' if r.get('missed') else '|',r.get('missed',''),flush=True)
    with ThreadPoolExecutor(int(os.environ.get('MUT_JOBS','4'))) as ex: list(ex.map(job,mus))
main()
