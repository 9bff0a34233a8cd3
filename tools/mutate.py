#!/usr/bin/env python3
"""Mutation testing of the model.  usage: mutate.py MUTATIONS.json [first] [last]
MUTATIONS.json: list of {id, file, def, old, new, edit, claim, expect?}.
For each one: copy the built tree, apply the edit, rebuild; every lemma whose proof breaks is
replaced by Admitted (in the scratch copy only) and the build goes on, so that in the end
Print Assumptions in the Prop*.v files tells exactly which property theorems fail.
Prepare: cp -a /verif/rocq /tmp/mutbase && make there."""
import json,os,re,subprocess,sys,time
BASE=os.environ.get('MUTBASE','/tmp/mutbase'); WORK=os.environ.get('MUTWORK','/tmp/mut'); J=os.environ.get('MUTJ','3')
LOG=os.environ.get('MUTLOG','/verif/seeded/LOG.jsonl')
def sh(c,t=3000):
    p=subprocess.run(c,shell=True,capture_output=True,text=True,timeout=t); return p.returncode,p.stdout+p.stderr
HEAD=re.compile(r'^\s*(?:Local |Global |#\[[^\]]*\] )?(Lemma|Theorem|Corollary|Example|Fact|Remark|Definition|Fixpoint|Instance|Goal|Program Definition)\s+([\w\']+)?',re.M)
def enclosing(src,line):
    pos=sum(len(l)+1 for l in src.split('\n')[:line-1])
    best=None
    for m in HEAD.finditer(src):
        if m.start()<=pos+200 and src.count('\n',0,m.start())+1<=line: best=m
    return best
def admit(path,line):
    src=open(path).read(); m=enclosing(src,line)
    if not m: return None
    name=m.group(2)
    p=re.compile(r'\bProof\b[^.]*\.').search(src,m.start())
    if not p: return None
    q=re.compile(r'\b(Qed|Defined)\.').search(src,p.end())
    nxt=HEAD.search(src,m.end())
    if not q or (nxt and nxt.start()<p.start()): return None
    new=src[:p.start()]+'Proof. Admitted.'+'\n'*src.count('\n',p.start(),q.end())+src[q.end():]
    open(path,'w').write(new); return name
def targets(mu):
    """only the Prop files that state the claims the edit is expected to break"""
    t=[]
    for pf in sorted(os.listdir(f'{BASE}/theories')):
        if pf.startswith('Prop') and pf.endswith('.v'):
            names=re.findall(r'Print Assumptions ([\w\']+)\.',open(f'{BASE}/theories/{pf}').read())
            if any(n.startswith(e) for n in names for e in mu.get('expect',[])): t.append(pf)
    return t
def run(mu):
    tg=targets(mu) if os.environ.get('MUTTARGET') else []
    goal=' '.join('theories/'+x+'o' for x in tg)
    sh(f'rm -rf {WORK}; cp -a {BASE} {WORK}')
    f=f"{WORK}/theories/{mu['file']}"
    s=open(f).read()
    n=s.count(mu['old'])
    if n!=1: return {'id':mu['id'],'error':f'old occurs {n} times'}
    open(f,'w').write(s.replace(mu['old'],mu['new']))
    broken=[]
    for it in range(60):
        rc,out=sh(f'cd {WORK} && make -k -j{J} COQC="timeout 400 coqc" {goal} 2>&1')
        errs=re.findall(r'File "\./(theories/\w+\.v)", line (\d+)[^\n]*\n((?:.*\n){0,8}?)(?=make|File|$)',out)
        errs=re.findall(r'File "\./(theories/\w+\.v)", line (\d+), characters [\d-]+:\nError',out)
        if rc==0: break
        # proofs that no longer end count as broken
        for path in set(re.findall(r'(theories/\w+)\.vo\] Error 124',out)):
            _,o=sh(f'cd {WORK} && timeout 400 coqc -time -q -R theories Verif {path}.v 2>/dev/null | tail -1')
            mm=re.match(r'Chars (\d+) - (\d+)',o)
            if mm: errs.append((path+'.v',open(f'{WORK}/{path}.v','rb').read()[:int(mm.group(2))].count(b'\n')+1))
        if not errs: return {'id':mu['id'],'error':'no error location: '+out[-600:],'broken':broken}
        prog=False
        for path,line in errs:
            nm=admit(f'{WORK}/{path}',int(line))
            if nm: broken.append(path[9:-2]+'.'+nm); prog=True
            else: return {'id':mu['id'],'error':f'cannot admit at {path}:{line}','broken':broken}
        if not prog: break
    failed=[]
    for pf in sorted(os.listdir(f'{WORK}/theories')):
        if not(pf.startswith('Prop') and pf.endswith('.v')): continue
        if tg and pf not in tg: continue
        # .vo untouched since BASE => unaffected
        vo=pf+'o'
        if os.path.getmtime(f'{WORK}/theories/{vo}')==os.path.getmtime(f'{BASE}/theories/{vo}'): continue
        src=open(f'{WORK}/theories/{pf}').read()
        names=re.findall(r'Print Assumptions ([\w\']+)\.',src)
        rc,out=sh(f'cd {WORK} && coqc -Q theories Verif theories/{pf}')
        parts=re.split(r'^(Closed under the global context|Axioms:)',out,flags=re.M)
        kinds=parts[1::2]
        if len(kinds)!=len(names): failed.append(pf+':parse?'); continue
        failed+=[n for n,k in zip(names,kinds) if k=='Axioms:']
        failed+=[b.split('.')[1] for b in broken if b.split('.')[0]==pf[:-2] and b.split('.')[1] not in failed and b.split('.')[1] not in names]
    return {'id':mu['id'],'definition':mu['file']+': '+mu['def'],'edit':mu['edit'],'claim':mu['claim'],
            'first_broken':broken[:8],'n_broken_proofs':len(broken),'theorems_failed':failed,'theorems_tightened':[],
            'expect_ok': (all(any(x.startswith(e) for x in failed) for e in mu.get('expect',[])))}
def main():
    mus=json.load(open(sys.argv[1])); a=int(sys.argv[2]) if len(sys.argv)>2 else 0; b=int(sys.argv[3]) if len(sys.argv)>3 else len(mus)
    for mu in mus[a:b]:
        t=time.time(); r=run(mu); r['secs']=round(time.time()-t)
        print(json.dumps(r),flush=True)
        if 'error' not in r:
            r.pop('expect_ok'); open(LOG,'a').write(json.dumps(r)+'\n')
main()
