#!/usr/bin/env python3
# Translates the generated decision procedures SipMethodIndex.go and SipHeadersIndex.go into IndexTree.block data, line by line.
import re,sys
R='/repo/src/sipparser/'
def consts(L):
    d={};i=0
    for l in L:
        m=re.match(r'\s*(SIP_\w+)\s+\w+\s*=\s*(\d+|iota)\s*$',l)
        if m: d[m[1]]=int(m[2]) if m[2]!='iota' else None
    return d
class Pz:
    def __init__(s,L,C): s.L=[l.strip() for l in L];s.i=0;s.C=C
    def test(s,t):
        t=t.strip()
        while t.startswith('(') and t.endswith(')') and bal(t[1:-1]): t=t[1:-1]
        m=re.fullmatch(r"\(src\[pos(?:\+(\d+))?\] \| 0x20\) == '(.)'",t)
        if m: return int(m[1] or 0),'L',m[2]
        m=re.fullmatch(r"src\[pos(?:\+(\d+))?\] == '(.)'",t)
        if m: return int(m[1] or 0),'X',m[2]
        raise Exception(t)
    def block(s):
        out=[]
        while True:
            l=s.L[s.i]
            if l=='':
                s.i+=1;continue
            if l=='}' or l.startswith('case '): return out
            out.append(s.stmt())
    def stmt(s):
        l=s.L[s.i]
        if l=='pos++': s.i+=1; return ('Inc',1)
        m=re.fullmatch(r'pos \+= (\d+)',l)
        if m: s.i+=1; return ('Inc',int(m[1]))
        m=re.fullmatch(r'return (\w+), pos',l)
        if m: s.i+=1; return ('Ret',s.C[m[1]])
        m=re.fullmatch(r'if \(pos \+ (\d+)\) >= len1 \{|if pos >= len1 \{',l)
        if m:
            k=int(m[1] or 0); r=s.L[s.i+1]; assert s.L[s.i+2]=='}'
            m2=re.fullmatch(r'return (\w+), pos',r); s.i+=3
            return ('IfEnd',k,s.C[m2[1]])
        if l=='if (pos >= len1) || !IsSipToken(src[pos]) {':
            r=s.L[s.i+1]; assert s.L[s.i+2]=='}'
            m2=re.fullmatch(r'return (\w+), pos',r); s.i+=3
            return ('IfTerm',s.C[m2[1]])
        m=re.fullmatch(r"if \(pos < len1\) && (\(.*\)) \{",l)
        if m:
            k,f,c=s.test(m[1]); assert k==0
            s.i+=1; b=s.block(); assert s.L[s.i]=='}'; s.i+=1
            return ('IfNext',(f,c),b)
        m=re.fullmatch(r"switch src\[pos\]( \| 0x20)? \{",l)
        if m:
            s.i+=1; cs=[]
            while s.L[s.i]!='}':
                m2=re.fullmatch(r"case '(.)':",s.L[s.i]); s.i+=1
                cs.append((m2[1],s.block()))
            s.i+=1
            return ('Switch','L' if m[1] else 'X',cs)
        if l.startswith('if '):
            txt=l[3:]
            while not txt.endswith('{'):
                s.i+=1; txt+=' '+s.L[s.i]
            txt=txt[:-1].strip(); s.i+=1
            ts=[s.test(t) for t in txt.split('&&')]
            assert [t[0] for t in ts]==list(range(len(ts)))
            b=s.block(); assert s.L[s.i]=='}'; s.i+=1
            return ('IfAll',[(t[1],t[2]) for t in ts],b)
        raise Exception(l)
def bal(t):
    d=0
    for c in t:
        if c=='(': d+=1
        if c==')':
            d-=1
            if d<0: return False
    return d==0
def esc(c): return str(ord(c))
def tst(t): return 'T%s %s'%(t[0],esc(t[1]))
def pb(b,ind):
    if not b: return 'Bnil'
    return '('+''.join(ps(x,ind)+'\n'+' '*ind+'>> ' for x in b)+'Bnil)'
def ps(x,ind):
    k=x[0]
    if k=='Inc': return 'Inc %d'%x[1]
    if k=='Ret': return 'Ret %d'%x[1]
    if k=='IfEnd': return 'IfEnd %d %d'%x[1:]
    if k=='IfTerm': return 'IfTerm %d'%x[1]
    if k=='IfNext': return 'IfNext (%s)\n%s%s'%(tst(x[1]),' '*(ind+2),pb(x[2],ind+2))
    if k=='IfAll': return 'IfAll [%s]\n%s%s'%('; '.join(tst(t) for t in x[1]),' '*(ind+2),pb(x[2],ind+2))
    if k=='Switch': return 'Switch %s (%sCnil)'%('true' if x[1]=='L' else 'false',''.join('\n%sCase %s (* %s *) %s '%(' '*(ind+2),esc(c),c,'%s ('%pb(b,ind+4)) for c,b in x[2]))+')'*len(x[2])
def gen(f,fn,name,out):
    L=open(R+f).read().split('\n'); C=consts(L)
    a=[i for i,l in enumerate(L) if l.startswith('func %s('%fn)][0]
    e=[i for i in range(a,len(L)) if L[i]=='}'][0]
    body=L[a+2:e+1]   # skip len1 := ...
    assert 'len1 :=' in L[a+1]
    p=Pz(body,C); b=p.block(); assert p.L[p.i]=='}' and p.i==len(body)-1,(p.i,len(body))
    def names(d): return d
    with open(out,'w') as o:
        o.write('(** GENERATED by tools/gen_tree.py from /repo/src/sipparser/%s:%d-%d (%s): the Go function body, statement by\n    statement, in the syntax of IndexTree.v (byte literals as numbers). Do not edit. *)\n'%(f,a+1,e+1,fn))
        o.write('From Verif Require Import Base IndexTree.\n\n')
        o.write('(** %s:%d-%d (index constants). *)\n'%(f,[i for i,l in enumerate(L) if l.startswith('const (')][0]+1,a-1))
        for n,v in C.items():
            if v is None: v=max(x for x in C.values() if x is not None)+1
            o.write('Definition %s : N := %d.\n'%(n,v))
        o.write('\n(** %s:%d-%d (%s). *)\nDefinition %s : block :=\n  %s.\n'%(f,a+1,e+1,fn,name,pb(b,2)))
gen('SipMethodIndex.go','GetSipMethodIndex','methodTree','/verif/rocq/theories/MethodTree.v')
gen('SipHeadersIndex.go','GetSipHeaderIndex','headerTree','/verif/rocq/theories/HeaderTree.v')
