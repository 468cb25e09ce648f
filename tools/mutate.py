"""Test the theorems against wrong programs.
usage: mutate.py mutants.py [jobs]   (mutants.py defines M, a list of dicts
 file, definition, old, new, claim, expect)
Every mutant is built in a scratch copy under /tmp/mut; a proof that fails is replaced by
Admitted and the build goes on; at the end Print Assumptions tells which of the theorems
Cnn_* depend on a failed proof. One JSON line per mutant is printed and appended to
/verif/seeded/LOG.jsonl."""
import json, os, re, shutil, subprocess, sys
from concurrent.futures import ThreadPoolExecutor
ROOT='/verif/rocq'; SCR='/tmp/mut'
proj=[l.strip() for l in open(ROOT+'/_CoqProject') if l.strip().endswith('.v')]
names=[os.path.basename(p)[:-2] for p in proj]
def deps():
    d={}
    for n in names:
        s=open(f'{ROOT}/theories/{n}.v').read(); r=set()
        for m in re.finditer(r'From\s+Verif\s+Require\s+(?:Import|Export)?\s*([^.]*)\.',s): r|=set(m.group(1).split())
        d[n]=r & set(names)
    return d
D=deps()
def closure(f):
    out={f}
    for n in names:
        if D[n] & out: out.add(n)
    return [n for n in names if n in out]
STM=re.compile(r'^\s*(?:Local |Global |#\[[^\]]*\] )*(Theorem|Lemma|Example|Corollary|Fact|Remark|Proposition|Definition|Fixpoint|Record|Inductive|Ltac|Notation)\b\s*([A-Za-z_0-9\']*)',re.M)
def coqc(w,n,to=240):
    try:
        p=subprocess.run(['coqc','-q','-time','-w','none','-Q','theories','Verif',f'theories/{n}.v'],cwd=w,capture_output=True,timeout=to)
        return p.returncode,p.stdout.decode(errors='replace')+p.stderr.decode(errors='replace')
    except subprocess.TimeoutExpired as e:
        return 124,(e.stdout or b'').decode(errors='replace')
def admit(w,n,out,rc):
    """replace the failing proof of file n by Admitted; its name or None"""
    fn=f'{w}/theories/{n}.v'; b=open(fn,'rb').read()
    m=re.search(r'File "[^"]*", line (\d+), characters (\d+)-(\d+):\s*\n(?=Error|.*Error)',out)
    if m:
        L=int(m.group(1)); pos=sum(len(x)+1 for x in b.split(b'\n')[:L-1])+int(m.group(2))
    else:
        c=re.findall(r'Chars (\d+) - (\d+)',out)
        if not c: return None,'?'
        pos=int(c[-1][1])+2
    s=b.decode(); cpos=len(b[:pos].decode(errors='replace'))
    st=[m for m in STM.finditer(s) if m.start()<=cpos]
    # the last statement starting before the position and whose proof covers it
    last=st[-1]
    # nested definitions inside proofs do not occur at line start
    if last.group(1) in('Definition','Fixpoint','Record','Inductive','Ltac','Notation'): return None,last.group(2)
    name=last.group(2)
    pr=re.compile(r'\bProof\b[^.]*\.').search(s,last.end())
    q=re.compile(r'\b(Qed|Defined)\.').search(s,last.end())
    if not pr or not q or pr.start()>cpos: return None,name
    s=s[:pr.start()]+'Admitted.'+s[q.end():]
    open(fn,'w').write(s); return name,name
def run(k,mu):
    w=f'{SCR}/w{k}'; shutil.rmtree(w,ignore_errors=True); os.makedirs(SCR,exist_ok=True)
    shutil.copytree(ROOT,w)
    fn=f"{w}/theories/{mu['file']}.v"; s=open(fn).read()
    # the text of the definition only, if it can be found
    a,b=0,len(s); d=re.search(r"^\s*(?:Definition|Fixpoint)\s+"+re.escape(mu['definition'])+r"\b",s,re.M)
    if d:
        a=d.start(); nx=STM.search(s,d.end()); b=nx.start() if nx else len(s)
    part=s[a:b]
    if part.count(mu['old'])!=mu.get('count',1):
        return dict(error=f"pattern occurs {part.count(mu['old'])} times",**mu)
    open(fn,'w').write(s[:a]+part.replace(mu['old'],mu['new'])+s[b:])
    failed=[]; broken=None
    for n in closure(mu['file']):
        for it in range(60):
            rc,out=coqc(w,n)
            if rc==0: break
            nm,where=admit(w,n,out,rc)
            if nm is None: broken=f'{n}: {where}: {out[-300:]}'; break
            failed.append(nm)
        else: broken=f'{n}: too many failures'
        if broken: break
    res=[]
    if not broken:
        props=[n for n in closure(mu['file']) if n.startswith('Properties_')]
        th=[]
        for n in props:
            th+=re.findall(r'^Theorem\s+(C\d\d+_\w+)',open(f'{w}/theories/{n}.v').read(),re.M)
        c='From Verif Require '+' '.join(props)+'.\n'
        for n in props:
            for t in re.findall(r'^Theorem\s+(C\d\d+_\w+)',open(f'{w}/theories/{n}.v').read(),re.M):
                c+=f'Goal True. idtac "@@{t}". exact I. Qed.\nPrint Assumptions Verif.{n}.{t}.\n'
        if props:
            open(f'{w}/theories/Zcheck.v','w').write(c)
            rc,out=coqc(w,'Zcheck',600)
            if rc!=0: broken='Zcheck: '+out[-300:]
            out='\n'.join(l for l in out.split('\n') if not l.startswith('Chars'))
            for blk in out.split('@@')[1:]:
                t,_,rest=blk.partition('\n')
                bad=[f for f in failed if re.search(r'\b'+re.escape(f)+r'\b',rest.split('Closed under')[0])]
                if bad and 'Axioms' in rest: res.append(t.strip())
    shutil.rmtree(w,ignore_errors=True)
    r={'definition':f"{mu['file']}.{mu['definition']}",'edit':mu['old']+'  ==>  '+mu['new'],'claim':mu['claim'],
       'failed_proofs':sorted(set(failed),key=failed.index),'theorems_failed':res,'theorems_tightened':mu.get('tightened',[])}
    if broken: r['broken']=broken
    exp=mu.get('expect',[])
    r['missed']=[e for e in exp if not any(t.startswith(e) for t in res)]
    return r
if __name__=='__main__':
    g={}; exec(open(sys.argv[1]).read(),g); M=g['M']; j=int(sys.argv[2]) if len(sys.argv)>2 else 3
    log='/verif/seeded/LOG.jsonl'
    with ThreadPoolExecutor(j) as ex:
        for r in ex.map(lambda km: run(*km),list(enumerate(M))):
            if 'error' in r: print('ERROR',r['error'],r['definition'],r['old'][:60],flush=True); continue
            flag='MISSED '+str(r['missed']) if r['missed'] else 'ok'
            if r.get('broken'): flag='BROKEN '+r['broken']
            print(flag,r['definition'],'|',r['edit'][:100].replace('\n',' '),'| failed',len(r['failed_proofs']),r['theorems_failed'],flush=True)
            if not r.get('broken'):
                q=dict(r); del q['missed']
                q['survived']=r['missed']
                open(log,'a').write(json.dumps(q)+'\n')
