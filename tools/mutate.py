#!/usr/bin/env python3
"""Mutation runner: python3 mutate.py SCRATCH MUTANTS.json OUT.jsonl
SCRATCH is a built copy of /verif/rocq. Each mutant: {file, old, new, def, claim, expect?, count?}."""
import json,sys,subprocess,re,os
scratch,mf,out=sys.argv[1:4]
th=scratch+'/theories'
muts=json.load(open(mf))
def deps():
    d={}
    txt=subprocess.run('coqdep -Q theories Verif theories/*.v',shell=True,cwd=scratch,capture_output=True,text=True).stdout
    for l in txt.splitlines():
        m=re.match(r'(\S+?)\.vo\b.*?: (.*)',l)
        if m: d[os.path.basename(m.group(1))]={os.path.basename(x)[:-3] for x in m.group(2).split() if x.endswith('.vo')}
    return d
D=deps()
def dependents(fs):
    r=set(fs);ch=True
    while ch:
        ch=False
        for k,v in D.items():
            if k not in r and v&r: r.add(k);ch=True
    return r
def lemma_at(f,line):
    name=None
    for i,l in enumerate(open(f'{th}/{f}.v'),1):
        if i>line: break
        m=re.match(r'\s*(?:#\[.*?\]\s*)?(?:Local |Global )?(?:Lemma|Theorem|Example|Corollary|Definition|Fixpoint|Fact)\s+([\w\']+)',l)
        if m: name=m.group(1)
    return name
def thms(f): return re.findall(r'^(?:Theorem|Example)\s+(C\d\d\w*)',open(f'{th}/{f}.v').read(),re.M)
for m in muts:
    p=f"{th}/{m['file']}.v"; src=open(p).read()
    n=src.count(m['old'])
    if n!=m.get('count',1): print('BAD',m['file'],n,m['old'][:60]); continue
    open(p,'w').write(src.replace(m['old'],m['new']))
    saved=[]; bad=False
    for x in m.get('also',[]):   # the same bug in the other layers
        q=f"{th}/{x['file']}.v"; t=open(q).read()
        if t.count(x['old'])!=x.get('count',1): print('BAD also',x['file'],t.count(x['old']),x['old'][:60]); bad=True; continue
        saved.append((q,t)); open(q,'w').write(t.replace(x['old'],x['new']))
    if bad:
        for q,t in reversed(saved): open(q,'w').write(t)
        open(p,'w').write(src); continue
    r=subprocess.run('timeout 1500 make -k -j4',shell=True,cwd=scratch,capture_output=True,text=True)
    o=r.stdout+r.stderr
    fails=re.findall(r'File "\./theories/(\w+)\.v", line (\d+)',o)
    errs=[]
    for mm in re.finditer(r'File "\./theories/(\w+)\.v", line (\d+), characters[^\n]*\n(Error)',o):
        errs.append((mm.group(1),int(mm.group(2))))
    failed=[(f,lemma_at(f,l)) for f,l in errs]
    unb=sorted(dependents({f for f,_ in errs})-{f for f,_ in errs}) if errs else []
    lost=sorted({t for f in unb for t in thms(f)})
    rec={'definition':m['def'],'file':m['file'],'edit':m['old'].strip()+'  ==>  '+m['new'].strip()+''.join(' ; '+x['file']+'.v: '+x['old'].strip()+'  ==>  '+x['new'].strip() for x in m.get('also',[])),'claim':m['claim'],
      'failed':[f'{f}.{n}' for f,n in failed],'not_reached':lost,'result':'killed' if errs else ('SURVIVED' if r.returncode==0 else 'ERROR'),'tightened':[]}
    print(rec['result'],m['file'],m['def'],rec['failed'][:4],flush=True)
    open(out,'a').write(json.dumps(rec)+'\n')
    for q,t in reversed(saved): open(q,'w').write(t)
    open(p,'w').write(src)
subprocess.run('timeout 1500 make -k -j4',shell=True,cwd=scratch,capture_output=True)
