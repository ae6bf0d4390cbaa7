#!/usr/bin/env python3
"""Writes MANIFEST.json: collects theorem names Cnn_* from the P*.v files; status and notes from STATUS below."""
import re,glob,json,os
root=os.path.dirname(os.path.dirname(os.path.abspath(__file__)))
exec(open(os.path.join(root,'tools','status.py')).read())
thms={}
for f in sorted(glob.glob(root+'/rocq/theories/P[0-9]*.v')):
    for m in re.finditer(r'^Theorem (C\d\d)(\w*)',open(f).read(),re.M):
        thms.setdefault(m.group(1),[]).append(m.group(1)+m.group(2))
claims=[]
for l in open(root+'/properties.jsonl'):
    i=json.loads(l)['id']
    st,note=STATUS.get(i,('partial','not proved yet'))
    claims.append({"property":i,"status":st,"theorems":thms.get(i,[]),"note":note})
json.dump({"claims":claims},open(root+'/MANIFEST.json','w'),indent=1)
for c in claims:
    if not c['theorems']: print('no theorem:',c['property'],c['status'])
