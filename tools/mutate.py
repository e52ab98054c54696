#!/usr/bin/env python3
"""Mutation test of the theorems.

tools/mutate.py mutants.json [id ...]: for each mutant copy rocq/ to a scratch directory, apply the edit to the model,
recompile every dependent module up to the target property modules, and find the property theorems that no longer
prove.  A lemma that fails is cut at the failing tactic and Admitted, so that `Print Assumptions` of each property
theorem tells exactly whether its proof still goes through.  Appends one JSON line per mutant to seeded/LOG.jsonl.
"""
import json,os,re,subprocess,sys,shutil,time
ROOT=os.path.dirname(os.path.dirname(os.path.abspath(__file__)))
SRC=os.environ.get('MUT_SRC',ROOT+'/rocq')  # a compiled copy of rocq/
def order():
    return [l.strip()[9:-2] for l in open(SRC+'/_CoqProject') if l.startswith('theories/')]
def deps(m,th):
    t=open(f'{th}/{m}.v').read()
    r=set()
    for mm in re.finditer(r'From Verif Require (?:Import|Export)?([^.]*)\.',t): r|=set(mm.group(1).split())
    return r
def start_re(): return re.compile(r'^\s*(?:Local |Global |#\[[^\]]*\]\s*)?(Lemma|Theorem|Example|Corollary|Fact|Remark|Definition|Let|Instance|Fixpoint|Goal)\s+([A-Za-z0-9_\']*)',re.M)
def run(m,wd,tmo):
    cmd=f'ulimit -v 7000000; timeout {tmo} coqc -Q theories Verif theories/{m}.v'
    p=subprocess.run(['bash','-c',cmd],cwd=wd,capture_output=True,text=True)
    return p.returncode,p.stdout,p.stderr
def cut(path,line,ch):
    """cut the proof around byte offset and admit it; returns lemma name or None"""
    raw=open(path,'rb').read(); lines=raw.split(b'\n')
    off=sum(len(l)+1 for l in lines[:line-1])+ch
    txt=raw
    best=None
    for mm in re.finditer(rb'^\s*(?:Local |Global )?(Lemma|Theorem|Example|Corollary|Fact|Remark|Definition|Let|Instance|Fixpoint)\s+([A-Za-z0-9_\']*)',txt,re.M):
        if mm.start()<=off: best=mm
        else: break
    if not best: return None,None
    name=best.group(2).decode()
    pr=re.compile(rb'\bProof\b[^.]*\.').search(txt,best.end())
    if not pr or pr.end()>off+0: return None,name
    q=re.compile(rb'\b(Qed|Defined)\s*\.').search(txt,off)
    if not q: return None,name
    if txt[best.start():q.end()].count(b'Proof')!=1 : return None,name
    ends=[e.end() for e in re.finditer(rb'\.(?=\s)',txt[pr.start():off+1])]
    cutat=pr.start()+ends[-1] if ends else pr.end()
    new=txt[:cutat]+b' Admitted. '+txt[q.end():]
    # keep line count roughly (not needed)
    # an open bullet / brace does not matter for Admitted
    open(path,'wb').write(new)
    return name,name
def main():
    muts=json.load(open(sys.argv[1])); only=set(sys.argv[2:])
    mods=order()
    for mu in muts:
        if only and mu['id'] not in only: continue
        t0=time.time()
        wd='/tmp/mut_'+mu['id']; shutil.rmtree(wd,ignore_errors=True)
        shutil.copytree(SRC,wd)
        th=wd+'/theories'
        f=f"{th}/{mu['file']}.v"; s=open(f).read()
        k=s.count(mu['old'])
        if k!=1 and 'nth' not in mu: print(mu['id'],'BAD EDIT count',k); continue
        if 'nth' in mu:
            parts=s.split(mu['old']); i=mu['nth']; s=mu['old'].join(parts[:i+1])+mu['new']+mu['old'].join(parts[i+1:])
        else: s=s.replace(mu['old'],mu['new'])
        open(f,'w').write(s)
        dp={m:deps(m,th) for m in mods}
        # transitive dependents of the mutated file, restricted to ancestors of the targets
        need=set(); st=list(mu['targets'])
        while st:
            x=st.pop()
            if x in need: continue
            need.add(x); st+=list(dp.get(x,()))
        dirty={mu['file']}
        for m in mods:
            if dp[m]&dirty: dirty.add(m)
        todo=[m for m in mods if m in dirty and m in need]
        failed=[]; broken=[]; out={}
        for m in todo:
            if dp[m]&set(broken): broken.append(m); continue
            tries=0
            while True:
                rc,so,se=run(m,wd,mu.get('timeout',300)); tries+=1
                if rc==0: out[m]=so; break
                mm=re.search(r'line (\d+), characters (\d+)-(\d+):\s*\n(?:.*\n)*?Error',se)
                ms=list(re.finditer(r'line (\d+), characters (\d+)-(\d+):',se))
                if rc==124 or not ms:
                    # time out: find the lemma with -time is costly; give up on the module
                    broken.append(m); failed.append(f'{m}:(timeout/memory)'); break
                last=ms[-1]; 
                nm,lab=cut(f'{th}/{m}.v',int(last.group(1)),int(last.group(2)))
                failed.append(f'{m}.{lab}')
                if nm is None or tries>12: broken.append(m); break
        bad=[];good=[]
        for m in mu['targets']:
            t=open(f'{SRC}/theories/{m}.v').read()
            names=re.findall(r'^Theorem (C\d\d_\w+)',t,re.M)
            if m in broken: bad+=names; continue
            if m not in out: good+=names; continue
            tt=open(f'{th}/{m}.v').read()
            seq=re.findall(r'Print Assumptions (\w+)\.',tt)
            chunks=re.split(r'(?=Closed under the global context|^Axioms:|^Section Variables:)',out[m],flags=re.M)
            chunks=[c for c in chunks if c.startswith(('Closed','Axioms','Section'))]
            d=dict(zip(seq,chunks))
            if len(seq)!=len(chunks): print('WARN',m,len(seq),len(chunks))
            for n in names:
                if f'{m}.{n}' in failed or n not in d or d[n].startswith('Axioms'): bad.append(n)
                else: good.append(n)
        exp=mu.get('expect',[])
        miss=[e for e in exp if not any(b==e or b.startswith(e+'_') for b in bad)]
        rec=dict(id=mu['id'],definition=mu['definition'],edit=mu['edit'],claim=mu['claim'],failing_lemmas=failed,theorems_failed=bad,theorems_still_proved=good if len(good)<40 else len(good),expected_but_proved=miss,tightened=[],seconds=int(time.time()-t0))
        print(json.dumps(rec)); sys.stdout.flush()
        with open(mu.get('log','/tmp/m/log.jsonl'),'a') as g: g.write(json.dumps(rec)+'\n')
        if not miss: shutil.rmtree(wd,ignore_errors=True)
main()
