import re,glob,json,sys
SRC='/repo/src/sipparser/'
def strip(s):
    # remove comments outside of strings
    o=[];i=0
    while i<len(s):
        c=s[i]
        if c=='"':
            j=i+1
            while s[j]!='"': j+=2 if s[j]=='\\' else 1
            o.append(s[i:j+1]); i=j+1
        elif c=='`':
            j=s.index('`',i+1); o.append(s[i:j+1]); i=j+1
        elif c=="'":
            j=i+1
            while s[j]!="'": j+=2 if s[j]=='\\' else 1
            o.append(s[i:j+1]); i=j+1
        elif s.startswith('//',i): 
            j=s.find('\n',i); i=j if j>=0 else len(s)
        elif s.startswith('/*',i): i=s.index('*/',i)+2
        else: o.append(c); i+=1
    return ''.join(o)
class P:
    def __init__(s,t,i=0): s.t=t; s.i=i
    def ws(s):
        while s.i<len(s.t) and s.t[s.i] in ' \t\r\n': s.i+=1
    def peek(s): s.ws(); return s.t[s.i]
    def eat(s,x):
        s.ws(); assert s.t.startswith(x,s.i),(x,s.t[s.i:s.i+60]); s.i+=len(x)
    def tryeat(s,x):
        s.ws()
        if s.t.startswith(x,s.i): s.i+=len(x); return True
        return False
    def string(s):
        s.ws(); q=s.t[s.i]
        if q=='`':
            j=s.t.index('`',s.i+1); r=s.t[s.i+1:j].replace('\r',''); s.i=j+1; return r.encode('utf8')
        j=s.i+1; out=b''
        while s.t[j]!=q:
            if s.t[j]=='\\':
                c=s.t[j+1]
                m={'n':10,'r':13,'t':9,'"':34,'\\':92,"'":39,'a':7,'b':8,'f':12,'v':11}
                if c in m: out+=bytes([m[c]]); j+=2
                elif c=='x': out+=bytes([int(s.t[j+2:j+4],16)]); j+=4
                elif c in '01234567': out+=bytes([int(s.t[j+1:j+4],8)]); j+=4
                else: raise Exception('esc '+c)
            else: out+=s.t[j].encode('utf8'); j+=1
        s.i=j+1; return out
    def atom(s):
        c=s.peek()
        if c in '"`': return s.string()
        if c=="'": return s.string()[0]
        if c=='{':
            s.eat('{'); l=[]
            while not s.tryeat('}'):
                l.append(s.expr()); s.tryeat(',')
            return l
        if c=='(':
            s.eat('('); v=s.expr(); s.eat(')'); return v
        if s.tryeat('[]byte('): v=s.expr(); s.eat(')'); return v
        if s.tryeat('[]byte{'):
            l=[]
            while not s.tryeat('}'): l.append(s.expr()); s.tryeat(',')
            return bytes(l)
        m=re.match(r'\[\][A-Za-z]+',s.t[s.i:])
        if m: s.i+=m.end(); return s.atom()
        m=re.match(r'0x[0-9a-fA-F]+|\d+',s.t[s.i:])
        if m: s.i+=m.end(); return int(m.group(),0)
        m=re.match(r'[A-Za-z_][A-Za-z0-9_.]*',s.t[s.i:])
        if m:
            w=m.group(); s.i+=m.end()
            if w=='true': return True
            if w=='false': return False
            if w=='nil': return None
            if s.tryeat('('):
                a=[]
                while not s.tryeat(')'): a.append(s.expr()); s.tryeat(',')
                if w=='len': return len(a[0])
                return ('call',w,a)
            return ('id',w)
        raise Exception('atom '+s.t[s.i:s.i+50])
    def expr(s):
        v=s.atom()
        while True:
            s.ws()
            if s.t[s.i]=='+': s.i+=1; v=v+s.atom()
            elif s.t[s.i]=='-': s.i+=1; v=v-s.atom()
            elif s.t[s.i]=='*': s.i+=1; v=v*s.atom()
            elif s.t[s.i]==':': s.i+=1; v=('kv',v,s.expr())
            else: return v
def tables():
    out=[]
    for f in sorted(glob.glob(SRC+'*_test.go')):
        t=strip(open(f,encoding='utf8').read())
        fs=list(re.finditer(r'^func (\w+)\(',t,re.M))
        for k,m in enumerate(fs):
            body=t[m.start():fs[k+1].start() if k+1<len(fs) else len(t)]
            n=0
            for d in re.finditer(r'(\w+) := \[\]struct \{',body):
                p=P(body,d.end()); e=body.index('}',p.i); fields=[x.split() for x in body[p.i:e].split('\n') if x.strip()]
                p.i=e+1
                try: rows=p.atom()
                except Exception as ex: rows=('ERR',repr(ex))
                out.append((f.split('/')[-1],m.group(1),fields,rows,body[p.i:]))
    return out
