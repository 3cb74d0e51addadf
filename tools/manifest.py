#!/usr/bin/env python3
"""Writes MANIFEST.json: theorems are collected by their prefix Cnn_ from rocq/theories/Prop*.v."""
import json,re,glob,os
root=os.path.dirname(os.path.dirname(os.path.abspath(__file__)))
thm={}
for f in sorted(glob.glob(root+'/rocq/theories/Prop*.v')):
    for n in re.findall(r'^Theorem\s+(C\d\d+_\w+)',open(f).read(),re.M):
        thm.setdefault(n.split('_')[0],[]).append(n)
notes=json.load(open(root+'/tools/notes.json'))
out=[]
for l in open(root+'/properties.jsonl'):
    d=json.loads(l); i=d['id']; t=thm.get(i,[])
    st,note=notes.get(i,(None,''))
    if st is None:
        st='proved' if t and not any(x.endswith('_partial') for x in t) else 'partial'
    if not t and st=='proved': st='partial'
    if not t and not note: note='not modelled yet'
    out.append(dict(property=i,status=st,theorems=t,note=note))
json.dump(dict(claims=out),open(root+'/MANIFEST.json','w'),indent=1)
print({s:sum(1 for o in out if o['status']==s) for s in ('proved','partial','not_applicable')}, 'no theorem:',[o['property'] for o in out if not o['theorems']])
