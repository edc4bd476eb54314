#!/usr/bin/env python3
"""Regenerate MANIFEST.json from the Theorem names in rocq/theories/Props_*.v
and the notes in tools/notes.json (status override + note per property)."""
import json,re,glob,os
root=os.path.dirname(os.path.dirname(os.path.abspath(__file__)))
props=[json.loads(l)['id'] for l in open(root+'/properties.jsonl') if l.strip()]
notes=json.load(open(root+'/tools/notes.json'))
th={}
for f in sorted(glob.glob(root+'/rocq/theories/Props_*.v')):
    for m in re.finditer(r'^\s*Theorem\s+((C\d+)_\w+)',open(f).read(),re.M):
        th.setdefault(m[2],[]).append(m[1])
claims=[]
for p in props:
    n=notes.get(p,{})
    ts=th.get(p,[])
    if not ts:
        if n.get('status')=='not_applicable':
            claims.append(dict(property=p,status='not_applicable',theorems=[],note=n['note']))
        continue
    st=n.get('status') or ('partial' if any('_refuted' in t or t.endswith('_partial') for t in ts) else 'proved')
    claims.append(dict(property=p,status=st,theorems=ts,note=n.get('note','')))
json.dump(dict(claims=claims),open(root+'/MANIFEST.json','w'),indent=1)
print(len(claims),'claims', 'missing:',[p for p in props if p not in th])
bad=[k for k in th if k not in props]
if bad: print('theorems without property',bad)
