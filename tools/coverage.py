#!/usr/bin/env python3
"""Which functions of /repo/timeseria are cited by a definition of the model: prints a markdown table."""
import ast,glob,os,re,sys
R='/repo/timeseria'
funcs=[]
for f in sorted(glob.glob(R+'/*.py')+glob.glob(R+'/models/*.py')):
    rel=f[len(R)+1:]
    t=ast.parse(open(f).read())
    def walk(n,pre):
        for c in n.body if hasattr(n,'body') else []:
            if isinstance(c,(ast.FunctionDef,)):
                funcs.append((rel,pre+c.name,c.lineno,c.end_lineno))
                walk(c,pre+c.name+'.')
            elif isinstance(c,ast.ClassDef): walk(c,pre+c.name+'.')
            elif isinstance(c,(ast.If,ast.Try)):
                walk(c,pre)
    walk(t,'')
models=[m for m in sorted(glob.glob('/verif/rocq/theories/*.v')) if not re.search(r'(Proofs\d*|Lemmas|Tactics|Witness)\.v$|/Prop|/Spec',m)]
cit={}
for m in models:
    s=open(m).read()
    for com in re.findall(r'\(\*(.*?)\*\)',s,re.S):
        cur=None
        for tok in re.finditer(r'((?:models/)?\w+\.py)|(\d+)\s*-\s*(\d+)|(?<![\w.])(\d{2,4})(?![\w.])',com):
            if tok.group(1): cur=tok.group(1)
            elif cur:
                a=int(tok.group(2) or tok.group(4)); b=int(tok.group(3) or tok.group(4))
                if a>b: continue
                cit.setdefault(cur,[]).append((a,b,os.path.basename(m)))
def cited(rel,a,b):
    r=set()
    for k in (rel,os.path.basename(rel)):
        for (x,y,m) in cit.get(k,[]):
            if x<=b and y>=a and (y-x)<400: r.add(m)
    return sorted(r)
if __name__=='__main__':
    for rel,n,a,b in funcs:
        c=cited(rel,a,b)
        if len(sys.argv)>1 and sys.argv[1]=='missing':
            if not c: print(rel,n,a,b)
        else: print('| %s | `%s` | %d-%d | %s |'%(rel,n,a,b,', '.join(c) or '-'))
