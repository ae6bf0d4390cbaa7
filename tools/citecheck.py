#!/usr/bin/env python3
# Checks that every citation "File.go:a-b (Name)" in theories/*.v points at the lines of Name.
import re,glob
R='/repo/src/sipparser/'
bad=0;n=0
for p in glob.glob('/verif/rocq/theories/*.v'):
    s=open(p).read()
    for m in re.finditer(r'(\w+\.go):(\d+)(?:-(\d+))?\s*\(((?:type |var |const )?[\w. ]+)\)',s):
        n+=1
        f,a,b,name=m[1],int(m[2]),int(m[3] or m[2]),m[4]
        try: L=open(R+f).read().split('\n')
        except Exception: print(p,m[0],'no file'); bad+=1; continue
        key=name.split()[-1].split('.')[-1]
        if not any(key in l for l in L[a-1:b]): print(p.split('/')[-1],m[0],'name not in range'); bad+=1
        elif L[a-1].startswith('func') and not L[b-1].startswith('}'): print(p.split('/')[-1],m[0],'end is',L[b-1]); bad+=1
print(n,'citations',bad,'bad')
