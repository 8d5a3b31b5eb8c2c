#!/usr/bin/env python3
"""Apply realistic bugs to a scratch copy of the model, rebuild, and log which theorems fail.
usage: seed.py seeds.json  -- a list of {file, old, new, definition, edit, breaks, [tightened]}"""
import json, os, re, shutil, subprocess, sys
V='/verif'; S='/tmp/seedwork'; B='/tmp/seedbase'   # a snapshot of rocq/, so that work can go on meanwhile
def deps():
    """textual dependency graph between lemmas/theorems/definitions"""
    g={}; 
    names={}
    for f in sorted(os.listdir(f'{B}/theories')):
        if not f.endswith('.v'): continue
        txt=open(f'{B}/theories/{f}').read()
        ms=list(re.finditer(r'^(?:Local |Global )?(Lemma|Theorem|Definition|Fixpoint|Example|Corollary|Inductive|Record|Remark|Fact)\s+([A-Za-z_0-9\']+)',txt,re.M))
        for i,m in enumerate(ms):
            body=txt[m.end():ms[i+1].start() if i+1<len(ms) else len(txt)]
            names[m.group(2)]=(f,txt.count('\n',0,m.start())+1,m.group(1))
            g[m.group(2)]=set(re.findall(r"[A-Za-z_][A-Za-z_0-9']*",body))
    req={f[:-2]:set() for f in os.listdir(f'{B}/theories') if f.endswith('.v')}
    for f in req:
        for m in re.finditer(r'From Verif Require (?:Import|Export) ([^.]*)\.',open(f'{B}/theories/{f}.v').read()):
            req[f]|={x for x in m.group(1).split() if x in req}
    reach={}
    def up(f):
        if f not in reach:
            reach[f]={f}
            for x in req[f]: reach[f]|=up(x)
        return reach[f]
    for k in g: g[k]={x for x in g[k] if x in g and x!=k and names[x][0][:-2] in up(names[k][0][:-2])}
    return g,names
def users(g,roots):
    seen=set(roots); ch=True
    while ch:
        ch=False
        for k,v in g.items():
            if k not in seen and v & seen: seen.add(k); ch=True
    return seen
def lemma_at(names,f,line):
    best=None
    for k,(ff,l,kind) in names.items():
        if ff==f and l<=line and (best is None or l>names[best][1]): best=k
    return best
def run(seed,g,names):
    if os.path.exists(S): shutil.rmtree(S)
    shutil.copytree(B,S)   # includes compiled files: only dependents are rebuilt
    p=f'{S}/theories/{seed["file"]}'
    t=open(p).read()
    assert t.count(seed['old'])==1,(t.count(seed['old']),seed['old'])
    open(p,'w').write(t.replace(seed['old'],seed['new']))
    r=subprocess.run('coq_makefile -f _CoqProject -o Makefile >/dev/null 2>&1; timeout 1500 make -k -j4 COQC="timeout 240 coqc" 2>&1',shell=True,cwd=S,capture_output=True,text=True)
    errs=[]
    for m in re.finditer(r'File "\./theories/([A-Za-z0-9_]+\.v)", line (\d+), characters[^\n]*:\nError',r.stdout):
        errs.append((m.group(1),int(m.group(2))))
    failed=[]
    for f,l in errs:
        k=lemma_at(names,f,l); failed.append((f,k))
    # a proof which no longer ends: all the theorems of the file
    for m in re.finditer(r'theories/([A-Za-z0-9_]+)\.vo\] Error 124',r.stdout):
        failed+=[(m.group(1)+'.v',k) for k,v in names.items() if v[0]==m.group(1)+'.v' and v[2] in ('Lemma','Theorem')][:1]
    roots=[k for _,k in failed]
    # theorems in Prop files that (transitively) use a failed lemma
    thms=sorted(k for k in users(g,roots) if re.match(r'C\d+_',k) and names[k][2]=='Theorem') if roots else []
    if roots and not thms: thms=[]
    return failed,thms
if __name__=='__main__':
    if '--keep' not in sys.argv:
        shutil.rmtree(B,ignore_errors=True); shutil.copytree(f'{V}/rocq',B)
    g,names=deps()
    seeds=json.load(open(sys.argv[1]))
    for s in seeds:
        try: failed,thms=run(s,g,names)
        except AssertionError as e:
            print('BAD SEED',e); continue
        out={'definition':s['definition'],'edit':s['edit'],'claim_broken':s['breaks'],
             'first_failures':[f'{a}:{b}' for a,b in failed],'theorems_failed':thms,'theorems_tightened':s.get('tightened',[])}
        print(('KILLED  ' if failed else 'SURVIVED'),s['definition'],'|',s['edit'],'|',out['first_failures'],'|',len(thms))
        if failed or s.get('log_survivor'):
            open(f'{V}/seeded/LOG.jsonl','a').write(json.dumps(out)+'\n')
        sys.stdout.flush()
