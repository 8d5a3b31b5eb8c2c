#!/usr/bin/env python3
"""Mutate the model systematically: one small edit at a time (a comparison, an operator, a constant,
an exception), rebuild the dependents in a scratch copy, stop at the first failure.
usage: mutate.py workers results.jsonl [file.v ...]   (resumes: edits already in the results are skipped)"""
import json, os, re, shutil, subprocess, sys, random, threading, queue
sys.path.insert(0,os.path.dirname(os.path.abspath(__file__)))
import seed
V='/verif'; B='/tmp/mutbase'
MODELS='Base Items Series Access Alias Ops Intervals Transform Models Recon Forecast Utils Save Lstm Events Anomaly Csv Evaluate Wrappers Plots Cache Load Periodicity Convert Lists Make Generic'.split()
EDITS=[(r'\bqltb\b','qleb'),(r'\bqleb\b','qltb'),(r'\bqeqb\b','qleb'),(r'Nat\.ltb','Nat.leb'),(r'Nat\.leb','Nat.ltb'),(r'Nat\.eqb','Nat.leb'),
 (r'Z\.ltb','Z.leb'),(r'Z\.leb','Z.ltb'),(r'Z\.eqb','Z.leb'),(r'\bString\.eqb\b','(fun a b : string => negb (String.eqb a b))'),(r'\bnegb\b','(@id bool)'),
 (r'&&','||'),(r'\|\|','&&'),(r'\bQcplus\b','Qcminus'),(r'\bQcminus\b','Qcplus'),(r'\btrue\b','false'),(r'\bfalse\b','true'),
 (r'\bq0\b','q1'),(r'\bq1\b','q0'),(r'\bfirstn\b','skipn'),(r'\bskipn\b','firstn'),(r'\bqmin\b','qmax'),(r'\bqmax\b','qmin'),
 (r'Err ValueError','Err TypeError'),(r'Err TypeError','Err ValueError'),(r'Err KeyError','Err ValueError'),(r'Err (?!ValueError|TypeError|KeyError)[A-Z]\w+','Err ValueError'),
 (r' \+ 1\b',' + 0'),(r' - 1\b',' - 0'),(r'\bS \(','id ('),(r' \+ ',' - '),(r' - ',' + '),(r'\bfst\b','snd'),(r'\bsnd\b','fst'),(r'\brev\b','id'),(r'\bfadd\b','fsub'),(r'\bfsub\b','fadd')]
def strip(t):
    """blank out comments and strings, keeping positions"""
    out=list(t); i=0; d=0; q=False
    while i<len(t):
        if not q and t.startswith('(*',i): d+=1; out[i]=out[i+1]=' '; i+=2; continue
        if d and t.startswith('*)',i): d-=1; out[i]=out[i+1]=' '; i+=2; continue
        if d:
            if t[i]!='\n': out[i]=' '
            i+=1; continue
        if t[i]=='"': q=not q
        elif q: out[i]='_'
        i+=1
    return ''.join(out)
def mutants(f):
    t=open(f'{B}/theories/{f}.v').read(); s=strip(t)
    ms=list(re.finditer(r'^(Definition|Fixpoint|Inductive|Record|Lemma|Open|Notation|Section|Arguments|From|Local|Coercion|Infix|Ltac|Class|Instance|Proof|Qed)\b[ \t]*([A-Za-z_0-9\']*)',s,re.M))
    res=[]
    for i,m in enumerate(ms):
        if m.group(1) not in ('Definition','Fixpoint'): continue
        a=s.find(':=',m.end()); e=ms[i+1].start() if i+1<len(ms) else len(s)
        if a<0 or a>e: continue
        for r,n in EDITS:
            for x in re.finditer(r,s[a:e]):
                p=a+x.start(); q=a+x.end()
                line=t.count('\n',0,p)+1
                ctx=t[max(m.start(),p-50):min(len(t),q+50)].replace('\n',' ')
                res.append(dict(file=f+'.v',definition=m.group(2),pos=p,end=q,new=n,old=t[p:q],line=line,context=ctx))
    return res
def run(w,mu):
    D=f'/tmp/mut/w{w}'
    if not os.path.exists(D): shutil.copytree(B,D)
    p=f'{D}/theories/{mu["file"]}'; t=open(f'{B}/theories/{mu["file"]}').read()
    open(p,'w').write(t[:mu['pos']]+mu['new']+t[mu['end']:])
    try: r=subprocess.run('timeout 1500 make -j1 COQC="timeout 240 coqc" 2>&1',shell=True,cwd=D,capture_output=True,text=True)
    finally:
        for x in os.listdir(f'{B}/theories'):
            if x.endswith('.aux') or x.endswith('.glob'): continue
            b=f'{B}/theories/{x}'; d=f'{D}/theories/{x}'
            if not os.path.exists(d) or os.path.getmtime(d)!=os.path.getmtime(b): shutil.copy2(b,d)
    m=re.search(r'File "\./theories/([A-Za-z0-9_]+)\.v", line (\d+), characters[^\n]*:\nError',r.stdout)
    if r.returncode==0: return 'survived',None,None
    if not m: 
        m2=re.search(r'theories/([A-Za-z0-9_]+)\.vo\] Error (\d+)',r.stdout)
        return 'killed',(m2.group(1) if m2 else '?'),None
    if m.group(1) in MODELS: return 'invalid',m.group(1),int(m.group(2))
    return 'killed',m.group(1),int(m.group(2))
if __name__=='__main__':
    n=int(sys.argv[1]); out=sys.argv[2]; files=[x.replace('.v','') for x in sys.argv[3:]] or MODELS
    if not os.path.exists(B):
        shutil.copytree(f'{V}/rocq',B)
        if not set(files)&{'Float','FloatOps'}:   # mutants of the other files: without the theorems on floats, which are slow
            t=open(f'{B}/_CoqProject').read(); open(f'{B}/_CoqProject','w').write(''.join(l+'\n' for l in t.splitlines() if 'Float' not in l))
            subprocess.run('coq_makefile -f _CoqProject -o Makefile',shell=True,cwd=B)
    seed.B=B; g,names=seed.deps()
    done=set()
    if os.path.exists(out):
        for l in open(out):
            d=json.loads(l); done.add((d['file'],d['pos'],d['new']))
    todo=[m for f in files for m in mutants(f) if (m['file'],m['pos'],m['new']) not in done]
    random.seed(7); random.shuffle(todo); seen={}
    for m in todo:   # one edit of each definition first, exceptions last
        k=(m['file'],m['definition']); m['rank']=seen.get(k,0); seen[k]=m['rank']+1
    todo.sort(key=lambda m: (m['old'].startswith('Err'),m.pop('rank'))); print(len(todo),'to do'); sys.stdout.flush()
    q=queue.Queue(); [q.put(x) for x in todo]; lock=threading.Lock()
    def work(w):
        while True:
            try: mu=q.get_nowait()
            except queue.Empty: return
            st,f,l=run(w,mu); mu['status']=st
            if st=='killed' and l:
                k=seed.lemma_at(names,f+'.v',l); mu['first']=f'{f}.v:{k}'
                mu['theorems']=sorted(x for x in seed.users(g,[k]) if re.match(r'C\d+_',x) and names[x][2]=='Theorem')
            elif st=='killed': mu['first']=f; mu['theorems']=[]
            with lock: open(out,'a').write(json.dumps(mu)+'\n')
    ts=[threading.Thread(target=work,args=(w,)) for w in range(n)]
    [x.start() for x in ts]; [x.join() for x in ts]
