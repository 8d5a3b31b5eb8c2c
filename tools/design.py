#!/usr/bin/env python3
import json,sys,re
sys.path.insert(0,'/verif/tools')
import coverage as C
P=[json.loads(l) for l in open('/verif/properties.jsonl')]
M={c['property']:c for c in json.load(open('/verif/MANIFEST.json'))['claims']}
head=open('/verif/tools/design_head.md').read().replace('@@FILES@@\n','')
o=[head,'## 5. Property by property\n','For each property: what was modelled is in the files of section 2 which hold its theorems; what is proved and under which\nconditions is the note; the theorems are listed.\n']
for p in P:
    m=M[p['id']]
    o.append('**%s - %s** (%s). %s'%(p['id'],p['title'],m['status'],m['note'].strip()))
    o.append('Theorems: '+', '.join('`%s`'%t for t in m['theorems'])+'.\n')
o.append('\n## 6. Function by function\n')
o.append('The model files which cite lines of each function of the library. A function without a file is not modelled (or, for the\none-line delegations, only through the function it calls).\n')
o.append('| file | function | lines | model |\n|---|---|---|---|')
for rel,n,a,b in C.funcs:
    o.append('| %s | `%s` | %d-%d | %s |'%(rel,n,a,b,', '.join(C.cited(rel,a,b)) or '-'))
open('/verif/DESIGN.md','w').write('\n'.join(o)+'\n')
