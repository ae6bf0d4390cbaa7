#!/usr/bin/env python3
"""Append mutation records (output of mutate.py) to seeded/LOG.jsonl: python3 mutlog.py OUT.jsonl [note]"""
import json,sys
o=open('/verif/seeded/LOG.jsonl','a')
for l in open(sys.argv[1]):
    r=json.loads(l)
    nr=r.pop('not_reached')
    o.write(json.dumps({'definition':r['file']+'.v:'+r['definition'],'edit':r['edit'],'claim':r['claim'],'result':r['result'],
      'theorems_failed':r['failed'],'theorems_no_longer_built':nr,'theorems_tightened':r['tightened']})+'\n')
