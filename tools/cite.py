#!/usr/bin/env python3
# Replaces {File.go#Func} / {File.go#Recv.Func} / {File.go#type T} in theories/*.v by "File.go:a-b (Func)".
import re,sys,glob
R='/repo/src/sipparser/'
cache={}
def find(f,name):
    L=cache.setdefault(f,open(R+f).read().split('\n'))
    if name.startswith('type '):
        pat=r'^type %s\b'%name[5:]
    elif name.startswith('var ') or name.startswith('const '):
        pat=r'^(var|const)?\s*%s\b'%name.split()[1]
    elif '.' in name:
        a,b=name.split('.'); pat=r'^func \(\w+ \*?%s\) %s\('%(a,b)
    else: pat=r'^func (\(\w+ \*?\w+\) )?%s\('%name
    for i,l in enumerate(L):
        if re.search(pat,l):
            j=i
            while not (L[j].startswith('}') or L[j].startswith(')')):
                j+=1
                if j>=len(L): j=i;break
            return "%s:%d-%d (%s)"%(f,i+1,j+1,name)
    raise Exception("not found %s %s"%(f,name))
for p in sys.argv[1:] or glob.glob('/verif/rocq/theories/*.v'):
    s=open(p).read()
    t=re.sub(r'\{(\w+\.go)#([\w .]+)\}',lambda m:find(m[1],m[2]),s)
    if t!=s: open(p,'w').write(t)
