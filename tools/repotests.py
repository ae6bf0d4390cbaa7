# Writes rocq/theories/RepoTests.v: the test tables of the repository, read from the _test.go files, and the model run on them.
import sys,os; sys.path.insert(0,os.path.dirname(os.path.abspath(__file__)))
sys.dont_write_bytecode=True
import gotables as go,re
T={n:(f,fl,rows) for f,n,fl,rows,b in go.tables()}
def coqb(b):
    if not b: return '[]'
    parts=[];cur=''
    for c in b:
        if 32<=c<127: cur+='""' if c==34 else chr(c)
        else:
            if cur: parts.append('s2b "%s"'%cur); cur=''
            if parts and parts[-1].startswith('['): parts[-1]=parts[-1][:-1]+'; %d]'%c
            else: parts.append('[%d]'%c)
    if cur: parts.append('s2b "%s"'%cur)
    return ' ++ '.join(parts)
def lit(v):
    if isinstance(v,bool): return 'true' if v else 'false'
    if isinstance(v,int): return str(v)
    if isinstance(v,bytes): return coqb(v)
    if isinstance(v,tuple) and v[0]=='id': return v[1]
    raise Exception(v)
def rows(n,cols=None):
    f,fl,rs=T[n]; names=[]
    for x in fl: names+= [x[0]]
    out=[]
    for r in rs:
        r=[y[2] if isinstance(y,tuple) and y[0]=='kv' else y for y in r]
        d=dict(zip(names,r)); out.append([d[c] for c in (cols or names)])
    return out
O=[]; NAMES=[]; COUNT=[0]
def emit(n,check,cols=None,fix=None,also='',tag=''):
    f=T[n][0]; rs=rows(n,cols); rs=[fix(r) for r in rs] if fix else rs
    COUNT[0]+=len(rs)
    nm=n+tag
    O.append('(** %s (%s)%s. *)\nDefinition rows_%s := [\n  %s].\nLemma %s : forallb %s rows_%s = true. Proof. vm_compute. reflexivity. Qed.\n'%(f,n,also,nm,';\n  '.join('('+', '.join(lit(v) for v in r)+')' for r in rs),nm,check,nm))
STD=['src','ok','newPos','encode']
H='(objCheck (ctx 2048) (WKObj (KHdr %s)))'
def hdr(n,k,e='ctx 2048'): emit(n,'(objCheck (%s) (WKObj (KHdr %s)))'%(e,k),STD)
emit('TestParseUIntOK','uintCheck')
emit('TestParseLWS1','(lwsCheck ParseLWS)')
emit('TestParseLWS2','(lwsCheck ParseLWS_2)')
pred={'IsSipSeparators':None}
def cs(r): return [('id',r[0][1]),r[1]]
emit('TestCharset','setCheck',None,cs)
emit('TestMemParseAndAllocCStringEscapable','escCheck',['src','ok','newPos'])
emit('TestMemParseAndAllocSipQuotedStringParseOK','quotedCheck')
emit('TestMemParseAndAllocSipQuotedStringNOK','quotedFails')
emit('TestAbnfRefParse','refCheck',['src','end','newPos'])
emit('TestAbnfRefParseEscapable','refEscCheck',['src','ok','end','newPos','escapeNum'])
U={'ABNF_URI_SIP':'USip','ABNF_URI_SIPS':'USips','ABNF_URI_TEL':'UTel','ABNF_URI_URN':'UUrn','ABNF_URI_ABSOLUTE':'UAbsolute','ABNF_URI_UNKNOWN':'UAbsolute'}
emit('TestSipAddrParseScheme','schemeCheck',['src','ok','newPos','uriType'],lambda r:r[:3]+[('id',U[r[3][1]])])
emit('TestSipAddrParseAddrSpec','(objCheck (nameSpace false (ctx 1024)) (WKObj (KAddr true)))',STD)
emit('TestSipAddrParseNameAddr','(objCheck (ctx 1024) (WKObj (KAddr true)))',STD)
G={'SIP_GENERIC_VALUE_TYPE_IPV6':3,'SIP_GENERIC_VALUE_TYPE_TOKEN':1,'SIP_GENERIC_VALUE_TYPE_QUOTED_STRING':2}
emit('TestSipGenericParamParse','gparamCheck',['src','ok','newPos','encode','valueType'],lambda r:r[:4]+[G[r[4][1]]])
emit('TestParseSipGenericParams','gparamsCheck',STD)
hdr('TestSipHeaderCSeqParse','KCSeq'); hdr('TestSipHeaderCallIDParse','KCallID'); hdr('TestSipHeaderContactParse','KContact','nameSpace false (ctx 2048)')
hdr('TestSipHeaderContactParse2','KContact','nameSpace false (known KContact)')
hdr('TestSipHeaderContentDispositionParse','KContentDisposition'); hdr('TestSipHeaderContentDispositionParse2','KContentDisposition','known KContentDisposition')
hdr('TestSipHeaderContentLengthParse','KContentLength'); emit('TestSipHeaderContentLengthParse','endCheck',['ok','encode','encodeEnd'],tag='_end')
hdr('TestSipHeaderContentTypeParse','KContentType'); hdr('TestSipHeaderContentTypeParse2','KContentType','known KContentType')
hdr('TestSipHeaderExpiresParse','KExpires'); hdr('TestSipHeaderFromParse','KFrom','nameSpace false (ctx 2048)'); hdr('TestSipHeaderFromParse2','KFrom','known KFrom')
hdr('TestSipHeaderMaxForwardsParse','KMaxForwards'); hdr('TestSipHeaderPAssertedIdentityParse','KPai'); hdr('TestSipHeaderPathParse','KPath')
hdr('TestSipHeaderRAckParse','KRAck'); hdr('TestSipHeaderRSeqParse','KRSeq'); hdr('TestSipHeaderRecordRouteParse','KRecordRoute'); hdr('TestSipHeaderRouteParse','KRoute')
hdr('TestSipHeaderServiceRouteParse','KServiceRoute'); hdr('TestSipHeaderToParse','KTo','nameSpace false (ctx 2048)'); hdr('TestSipHeaderToParse2','KTo','known KTo')
hdr('TestSipHeaderViaParse','KVia'); hdr('TestSipHeaderViaParse2','KVia','known KVia')
emit('TestFindCrlfRFC3261','crlfCheck')
emit('TestParseRawHeadersOk','(roundCheck (ctx 2048) WKRaws)')
emit('TestFindRawHeaders','findCheck')
HT={'HOST_TYPE_IPV4':1,'HOST_TYPE_IPV6':2,'HOST_TYPE_NAME':3}
emit('TestSipHostPortParseHostOk','hostCheck',None,lambda r:r[:3]+[HT[r[3][1]]])
emit('TestSipHostPortParseHostNOk','(hostFails parseHost)')
emit('TestSipHostPortParseOk','hostportCheck',None,lambda r:r[:3]+[HT[r[3][1]]]+r[4:])
emit('TestSipHostPortParseNOk','(hostFails parseHostPort)')
emit('TestWriteByteAsString','byteCheck')
emit('TestSipHostPortWriteIpv4AsString','ipv4Check')
emit('TestSipMethodParse','(partCheck parseMethod encMethod)',STD)
emit('TestSipStartLineParse','lineCheck')
emit('TestSipUriParseOK','uriCheck')
emit('TestSipUriParseNOK','(failCheck (ctx 4096) (WKObj KSipUri))')
emit('TestSipUriEncode','(roundCheck (ctx 10240) (WKObj KSipUri))')
emit('TestSipUriEncode2','(roundCheck (uriEnv false) (WKObj KSipUri))')
emit('TestSipUriEncode3','(roundCheck (uriEnv true) (WKObj KSipUri))')
emit('TestSipVersionParse','(partCheck parseVersion encVersion)',STD)
emit('TestTelUriParseOK','telCheck')
emit('TestTelUriParseNOK','(failCheck (ctx 2048) (WKObj KTelUri))')
emit('TestTelUriEncode','(roundCheck (ctx 10240) (WKObj KTelUri))')
emit('TestSipMsgParseWithoutBody','(objCheck (ctx 10240) WKMsg)',STD)
# the tests of SipMsg_test.go with one text each
t=go.strip(open(go.SRC+'SipMsg_test.go',encoding='utf8').read())
def one(fn,var):
    m=re.search(r'^func %s\('%fn,t,re.M); b=t[m.start():]
    env={}
    for v in ('boundary',var):
        k=re.search(r'\n\t%s := '%v,b)
        if not k: continue
        txt=b[k.end():]
        if 'boundary' in env: txt=re.sub(r'(?<![A-Za-z"-])boundary(?=\s*[+\n])','"'+env['boundary'].decode()+'"',txt)
        txt=txt.replace('ABNF_SIP_DEFAULT_BOUNDARY','"sip-unique-boundary-aasdasdewfd"')
        env[v]=go.P(txt).expr()
    return env[var]
for fn,chk in (('TestSipMsgParseWithOneBody','(roundCheck (ctx 10240) WKMsg)'),('TestSipMsgParseWithMultiBody','(roundCheck (ctx 10240) WKMsg)'),('TestSipMsgParseWithMultiBodyRemoveContentType','withoutType')):
    O.append('(** SipMsg_test.go (%s). *)\nDefinition rows_%s := [\n  (%s,\n   %s)].\nLemma %s : forallb %s rows_%s = true. Proof. vm_compute. reflexivity. Qed.\n'%(fn,fn,coqb(one(fn,'src')),coqb(one(fn,'dst')),fn,chk,fn)); COUNT[0]+=1
HEAD=open(os.path.join(os.path.dirname(os.path.abspath(__file__)),'repotests_head.txt')).read()
TAIL=open(os.path.join(os.path.dirname(os.path.abspath(__file__)),'repotests_tail.txt')).read()
open('/verif/rocq/theories/RepoTests.v','w').write(HEAD+'\n'+'\n'.join(O)+'\n'+TAIL)
print(COUNT[0],'rows',len(O),'tables')
