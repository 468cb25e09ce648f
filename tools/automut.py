"""Generated wrong programs.  usage: automut.py out.jsonl jobs per_def seed [file ...]
For every Definition/Fixpoint of the model files (that no line of seeded/LOG.jsonl names, unless
files are given) apply random small edits (comparison, connective, constant, +-1, projection, ...)
in a scratch copy, rebuild what depends on the file and stop at the first proof that fails.
A mutant for which everything still builds is reported as SURVIVED; these are looked at by hand."""
import json, os, re, random, shutil, subprocess, sys
from concurrent.futures import ThreadPoolExecutor
import queue
ROOT='/verif/rocq'; SCR='/tmp/am'
out=sys.argv[1]; jobs=int(sys.argv[2]); per=int(sys.argv[3]); random.seed(int(sys.argv[4])); only=sys.argv[5:]
proj=[l.strip() for l in open(ROOT+'/_CoqProject') if l.strip().endswith('.v')]
names=[os.path.basename(p)[:-2] for p in proj]
src={n:open(f'{ROOT}/theories/{n}.v').read() for n in names}
D={}
for n in names:
    r=set()
    for m in re.finditer(r'From\s+Verif\s+Require\s+(?:Import|Export)?\s*([^.]*)\.',src[n]): r|=set(m.group(1).split())
    D[n]=r & set(names)
def closure(f):
    o={f}
    for n in names:
        if D[n] & o: o.add(n)
    return [n for n in names if n in o]
skip=('Base','Uniq','StripGraph','LampamBound','FlexuralSwap','StripWeights','RedesignThick')
models=[n for n in names if not n.startswith(('Properties','Spec')) and not n.endswith('Proofs') and n not in skip]
done=set()
for l in open('/verif/seeded/LOG.jsonl'):
    d=json.loads(l).get('definition') or ''
    done.add(d.split('.')[-1])
RULES=[(r'<=\?','<?'),(r'(?<!<)(?<!=)<\?','<=?'),(r'&&','||'),(r'\|\|','&&'),(r'\bnegb ',''),(r' \+ 1\b',''),(r' - 1\b',''),
 (r' \+ ',' - '),(r' - ',' + '),(r'\btrue\b','false'),(r'\bfalse\b','true'),(r'\bfirstn\b','skipn'),(r'\bskipn\b','firstn'),
 (r'\bfst\b','snd'),(r'\bsnd\b','fst'),(r'\brev ',''),(r'\bmin\b','max'),(r'\bmax\b','min'),(r'\bQltb\b','Qle_bool'),(r'\bQle_bool\b','Qltb'),
 (r'(?<![\w.#])0(?=%Q|%nat|\b)(?!\.)','1'),(r'(?<![\w.#])1(?=%Q|%nat|\b)','2'),(r'(?<![\w.#])2(?=%Q|%nat|\b)','3'),(r'\bforallb\b','existsb'),(r'\bexistsb\b','forallb'),
 (r'\bS i\b','i'),(r'\bS k\b','k'),(r' \* ',' + '),(r'\bcos','cos')]
RULES=RULES[:-1]
def mutants(n):
    s=src[n]; res=[]
    ms=list(re.finditer(r"^\s*(?:Definition|Fixpoint)\s+([\w']+)",s,re.M))
    bounds=[m.start() for m in re.finditer(r"^\s*(?:Definition|Fixpoint|Record|Inductive|Section|End|Variables?|Hypothesis|Arguments|Notation|Local|Context|\(\*\*|\(\* -)",s,re.M)]+[len(s)]
    for m in ms:
        d=m.group(1)
        if not only and d in done: continue
        a=m.start(); b=min(x for x in bounds if x>m.end())
        body=s[a:b]; k=body.find(':=')
        if k<0: continue
        c=[]
        for pat,rep in RULES:
            for x in re.finditer(pat,body[k:]):
                p=a+k+x.start(); q=a+k+x.end()
                # not in a comment
                if s.rfind('(*',a,p)>s.rfind('*)',a,p): continue
                c.append((p,q,rep))
        random.shuffle(c)
        for p,q,rep in c[:per]: res.append((n,d,p,q,rep))
    return res
todo=[]
for n in (only or models): todo+=mutants(n)
if not only: random.shuffle(todo)
print(len(todo),'mutants',flush=True)
pool=queue.Queue()
for k in range(jobs):
    w=f'{SCR}/w{k}'; shutil.rmtree(w,ignore_errors=True); shutil.copytree(ROOT,w); pool.put(w)
def run(mu):
    n,d,p,q,rep=mu; w=pool.get(); touched=[]
    try:
        s=src[n]; t=s[:p]+rep+s[q:]
        open(f'{w}/theories/{n}.v','w').write(t)
        ctx=s[max(0,p-45):p].replace('\n',' ')+'{'+s[p:q]+' => '+rep+'}'+s[q:q+35].replace('\n',' ')
        status='SURVIVED'; where=''
        import time; t0=time.time()
        for f in closure(n):
            if time.time()-t0>240: status='SURVIVED?'; break
            touched.append(f)
            try:
                r=subprocess.run(['coqc','-q','-w','none','-Q','theories','Verif',f'theories/{f}.v'],cwd=w,capture_output=True,timeout=300)
                rc=r.returncode; o=(r.stdout+r.stderr).decode(errors='replace')
            except subprocess.TimeoutExpired: rc=124; o=''
            if rc:
                m=re.search(r'File "[^"]*", line (\d+)',o); name='?'
                if m:
                    tx=open(f'{w}/theories/{f}.v').read().split('\n')[:int(m.group(1))]
                    for l in reversed(tx):
                        x=re.match(r"\s*(?:Theorem|Lemma|Example|Corollary|Definition|Fixpoint)\s+([\w']+)",l)
                        if x: name=x.group(1); break
                status='INVALID' if f==n and (name==d or rc!=124) and not re.search(r'Proof',o) and f in models else 'killed'
                where=f+'.'+name; break
    finally:
        for f in touched:
            for e in ('.v','.vo','.vok','.vos','.glob'):
                a=f'{ROOT}/theories/{f}{e}'
                if os.path.exists(a): shutil.copy2(a,f'{w}/theories/{f}{e}')
        pool.put(w)
    j=dict(status=status,definition=f'{n}.{d}',edit=ctx,where=where)
    open(out,'a').write(json.dumps(j)+'\n'); print(status,f'{n}.{d}',where,'|',ctx if status[:4]=='SURV' else '',flush=True)
with ThreadPoolExecutor(jobs) as ex: list(ex.map(run,todo))
