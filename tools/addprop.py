#!/usr/bin/env python3
"""addprop.py FILE: append the property objects in FILE (a JSON list) to properties.jsonl, replacing equal ids."""
import json,sys,os
root=os.path.dirname(os.path.dirname(os.path.abspath(__file__)))
p=root+'/properties.jsonl'
old=[json.loads(l) for l in open(p) if l.strip()]
for n in json.load(open(sys.argv[1])):
    assert set(n)=={'id','title','statement','quantifier','why_tests_cant','anchors'},n
    old=[o for o in old if o['id']!=n['id']]+[n]
old.sort(key=lambda o:int(o['id'][1:]))
open(p,'w').write(''.join(json.dumps(o)+'\n' for o in old))
