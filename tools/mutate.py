#!/usr/bin/env python3
"""Check the theorems against wrong programs.

usage: mutate.py MUTANTS.py [NAME...]
MUTANTS.py defines MUTANTS, a list of dicts with name, file, old, new, claim.  Each is applied to a
scratch copy of rocq/theories (outside /verif); every lemma whose proof no longer goes through is
replaced by an admitted one, and the property theorems whose Print Assumptions then is no
longer closed are the ones that failed.  One JSON line per mutant on stdout."""
import sys, os, re, json, shutil, subprocess, concurrent.futures as cf
ROOT=os.environ.get('ROOT','/verif/rocq'); SCRATCH='/tmp/mut'
def order():
    fs=[l.strip() for l in open(ROOT+'/_CoqProject') if l.strip().endswith('.v')]
    return [os.path.basename(f)[:-2] for f in fs]
ORDER=order()
def deps():
    d={}
    for f in ORDER:
        s=open(f'{ROOT}/theories/{f}.v').read()
        r=set()
        for m in re.finditer(r'From Verif Require (?:Import |Export )?([^.]*)\.',s): r|=set(m.group(1).split())
        d[f]=r
    return d
DEPS=deps()
def dependents(f):
    out={f}
    changed=True
    while changed:
        changed=False
        for g in ORDER:
            if g not in out and DEPS[g]&out: out.add(g); changed=True
    # topological
    res=[]; seen=set()
    def visit(g):
        if g in seen: return
        seen.add(g)
        for h in sorted(DEPS[g]&out): visit(h)
        res.append(g)
    for g in ORDER:
        if g in out: visit(g)
    return res
HEAD=re.compile(r'^[ \t]*(?:Local |Global )?(Lemma|Theorem|Example|Corollary|Fact|Remark|Instance)\s+([\w\']+)',re.M)
def admit(path, off):
    """admit the proof around byte offset off; returns its name or None"""
    raw=open(path,'rb').read()
    s=raw.decode(); pre=len(raw[:off].decode(errors='ignore'))
    last=None
    for m in HEAD.finditer(s):
        if m.start()<=pre: last=m
        else: break
    if last is None: return None
    pm=re.search(r'\bProof\b[^.]*\.',s[last.start():])
    if not pm: return None
    a=last.start()+pm.end()
    e=re.search(r'\b(Qed|Defined)\.',s[a:])
    if not e: return None
    b_=a+e.end()
    if pre>b_: return None
    s=s[:a]+' Admitted.'+s[b_:]
    open(path,'w').write(s)
    return last.group(2)
def run(mut):
    d=f"{SCRATCH}/{mut['name']}"
    shutil.rmtree(d,ignore_errors=True); os.makedirs(d)
    for f in os.listdir(ROOT+'/theories'):
        if f.endswith('.v') or f.endswith('.vo'): shutil.copy2(f'{ROOT}/theories/{f}',d)
    p=f"{d}/{mut['file']}.v"
    s=open(p).read()
    n=s.count(mut['old'])
    if n!=1: return dict(mut,error=f'old occurs {n} times')
    open(p,'w').write(s.replace(mut['old'],mut['new']))
    broken=[]; failed=[]; 
    for f in dependents(mut['file']):
        for _ in range(400):
            try:
                r=subprocess.run(['coqc','-time','-Q','.','Verif',f+'.v'],cwd=d,capture_output=True,text=True,timeout=mut.get('timeout',240))
                if r.returncode==0: break
                m=re.search(r'File "\./[\w]+\.v", line (\d+), characters (\d+)-(\d+):\nError',r.stderr)
                if not m: return dict(mut,error='no location: '+r.stderr[-300:])
                ln,ch=int(m.group(1)),int(m.group(2))
                raw=open(f'{d}/{f}.v','rb').read().split(b'\n')
                off=sum(len(x)+1 for x in raw[:ln-1])+ch
            except subprocess.TimeoutExpired as e:
                out=(e.stdout or b''); out=out.decode() if isinstance(out,bytes) else out
                cs=re.findall(r'^Chars \d+ - (\d+)',out,re.M)
                off=int(cs[-1])+1 if cs else 0
                r=None
            nm=admit(f'{d}/{f}.v',off)
            if nm is None:
                return dict(mut,error=f'{f}: cannot admit at {off}: '+(r.stderr[-400:] if r else 'timeout'),broken=broken)
            broken.append(f'{f}.{nm}')
        else: return dict(mut,error='too many failures',broken=broken[:20])
        if f.startswith('T_'):
            src=open(f'{d}/{f}.v').read()
            names=re.findall(r'Print Assumptions ([\w\']+)\.',src)
            outs=re.split(r'(?=Closed under the global context|^Axioms:)',r.stdout,flags=re.M)
            outs=[o for o in outs if o.startswith('Closed') or o.startswith('Axioms')]
            if len(outs)!=len(names): return dict(mut,error=f'{f}: {len(outs)} outputs for {len(names)} names')
            failed+=[n for n,o in zip(names,outs) if not o.startswith('Closed')]
    shutil.rmtree(d,ignore_errors=True)
    return dict(mut,broken=broken,failed=failed)
if __name__=='__main__':
    ns={}; exec(open(sys.argv[1]).read(),ns)
    ms=[m for m in ns['MUTANTS'] if len(sys.argv)<3 or m['name'] in sys.argv[2:]]
    with cf.ThreadPoolExecutor(int(os.environ.get("JOBS","4"))) as ex:
        for r in ex.map(run,ms): print(json.dumps(r),flush=True)
