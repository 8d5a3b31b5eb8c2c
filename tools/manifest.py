#!/usr/bin/env python3
"""Regenerates MANIFEST.json from the theorem names in rocq/theories/Prop*.v and tools/notes.json."""
import re,glob,json,os
root=os.path.dirname(os.path.dirname(os.path.abspath(__file__)))
th={}
for f in sorted(glob.glob(root+'/rocq/theories/Prop*.v')):
    for m in re.finditer(r'^Theorem\s+((C\d+)_\w+)', open(f).read(), re.M):
        th.setdefault(m.group(2),[]).append(m.group(1))
notes=json.load(open(root+'/tools/notes.json'))
props=[json.loads(l) for l in open(root+'/properties.jsonl') if l.strip()]
claims=[]
for p in props:
    i=p['id']; t=th.get(i,[])
    if not t:
        st='not_applicable' if notes.get(i,{}).get('na') else None
        if st is None: continue
    else:
        st=notes.get(i,{}).get('status') or ('partial' if any(x.endswith(('_partial','_refuted')) for x in t) else 'proved')
    claims.append(dict(property=i,status=st,theorems=t,note=notes.get(i,{}).get('note','')))
json.dump({"claims":claims},open(root+'/MANIFEST.json','w'),indent=1)
print(len(claims), 'claims;', sum(len(c['theorems']) for c in claims),'theorems; missing', [p['id'] for p in props if p['id'] not in {c['property'] for c in claims}])
