#!/usr/bin/env python3
# Generates rocq/theories/Charset.v from /repo/src/sipparser/AbnfCharset.go
import re,sys
t=open('/repo/src/sipparser/AbnfCharset.go').read()
vals=[int(x,16) for x in re.findall(r'^\t\t(0x[0-9a-f]{8}), /\* position',t,re.M)]
assert len(vals)==512
idx=re.findall(r'^\tABNF_CHARSET_(\w+)\s*= (\d)',t,re.M)
msk=dict(re.findall(r'^\tABNF_CHARSET_MASK_(\w+)\s*uint32 = \((0x\w+)\)',t,re.M))
lines=t.split('\n')
def ln(pat):
    for i,l in enumerate(lines):
        if re.search(pat,l): return i+1
    raise Exception(pat)
o=[]
o.append("""(** GENERATED by tools/gen_charset.py from AbnfCharset.go: the character class table
    [g_charsets] (lines 3-%d), the class constants and the classifier functions. *)
From Verif Require Import Base.

(** A class is (table index, bit mask), the two arguments (charsetIndex, mask) that the Go functions take. *)
Record charset := CS { csIndex : N; csMask : N }.
"""%(ln(r'^const \(')-2))
for k in (0,1):
    o.append("(** AbnfCharset.go:3 g_charsets[%d] *)"%k)
    o.append("Definition g_charsets%d : list N :=\n ["%k)
    v=vals[256*k:256*k+256]
    for r in range(0,256,8):
        o.append("  "+"; ".join(str(x) for x in v[r:r+8])+(";" if r<248 else ""))
    o.append(" ].\n")
o.append("""(** [charset[v] & mask != 0] for [charset = &g_charsets[charsetIndex]]. A byte is below 256, so
    the default of [nth] is never used on bytes. *)
Definition inset (cs : charset) (b : N) : bool :=
  negb (N.land (nth (N.to_nat b) (if csIndex cs =? 0 then g_charsets0 else g_charsets1) 0) (csMask cs) =? 0).
""")
fn=re.findall(r'func (Is\w+)\(ch byte\) bool \{\n\treturn \(g_charsets\[(\d)\]\[ch\] & ABNF_CHARSET_MASK_(\w+)\) != 0',t)
fnd={m:(n,i) for n,i,m in fn}
assert len(fn)==len(idx)==40
for n,i in idx:
    f,fi=fnd[n]; assert fi==i
    o.append("(** AbnfCharset.go:%d (index), :%d (mask), :%d (%s). *)"%(ln(r'^\tABNF_CHARSET_%s\s*='%n),ln(r'^\tABNF_CHARSET_MASK_%s\s'%n),ln(r'^func %s\('%f),f))
    o.append("Definition %s : charset := CS %s %d."%(n,i,int(msk[n],16)))
    o.append("Definition %s (b : N) : bool := inset %s b.\n"%(f,n))
open('/verif/rocq/theories/Charset.v','w').write("\n".join(o))
