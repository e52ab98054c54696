#!/usr/bin/env python3
"""Automatic mutation campaign over the model definitions.

tools/automut.py BASE OUT WORKER NWORKERS SEED PERDEF [module ...]
BASE is a compiled copy of rocq/ with times.json.  For each definition of each Model_*.v, PERDEF random edits that still
type-check are tried; a mutant is killed when a lemma fails that some theorem Cxx of Prop_*.v depends on.  Lemmas on which no
such theorem depends are admitted and skipped.  One JSON line per mutant goes to OUT.
"""
import json,os,re,subprocess,sys,shutil,time,random,glob
BASE,OUT,W,NW,SEED,PER=sys.argv[1],sys.argv[2],int(sys.argv[3]),int(sys.argv[4]),int(sys.argv[5]),int(sys.argv[6])
ONLY=sys.argv[7:]
TH=BASE+'/theories/'
mods=[l.strip()[9:-2] for l in open(BASE+'/_CoqProject') if l.startswith('theories/')]
times=json.load(open(BASE+'/times.json'))
def deps(m):
    t=open(TH+m+'.v').read(); r=set()
    for mm in re.finditer(r'From Verif Require (?:Import|Export)?([^.]*)\.',t): r|=set(mm.group(1).split())
    return r
dp={m:deps(m) for m in mods}
# lemma graph
refs={}; kind={}
for m in mods:
    ents=[]
    for l in open(TH+m+'.glob'):
        x=re.match(r'R(\d+):(\d+) (\S+) (\S+) (\S+) (\S+)',l)
        if x: ents.append((int(x[1]),'R',x[3],x[5])); continue
        x=re.match(r'(\w+) (\d+):(\d+) (\S+) (\S+)',l)
        if x and x[1] not in('binder','var','sec','mod'): ents.append((int(x[2]),x[1],'Verif.'+m,x[5]))
    ents.sort(key=lambda e:e[0]); cur=None
    for e in ents:
        if e[1]!='R':
            k=(e[2],e[3])
            if e[1] in('constr','proj'):
                if cur: refs.setdefault(k,set()).add(cur); refs[cur].add(k)
                continue
            cur=k; refs.setdefault(k,set()); kind[k]=e[1]
        elif cur and e[2].startswith('Verif.'): refs[cur].add((e[2],e[3]))
roots=[k for k in refs if k[0].startswith('Verif.Prop_') and re.match(r'C\d\d_',k[1]) and re.search(r'^Theorem '+k[1]+r'\b',open(TH+k[0][6:]+'.v').read(),re.M)]
# lemmas registered as hints are used by automation: count them as needed
for m in mods:
    for h in re.finditer(r'\bHint (?:Resolve|Rewrite|Immediate)([^:]*):',open(TH+m+'.v').read()):
        for nm in re.findall(r"[A-Za-z_][\w']*",h[1]): roots+=[k for k in refs if k[1]==nm]
needed=set(); st=list(roots)
while st:
    k=st.pop()
    if k in needed: continue
    needed.add(k); st+=[r for r in refs.get(k,()) if r not in needed]
def mask(t):
    out=[];d=0;i=0
    while i<len(t):
        if t.startswith('(*',i): d+=1; out.append('  '); i+=2; continue
        if t.startswith('*)',i) and d: d-=1; out.append('  '); i+=2; continue
        out.append(t[i] if d==0 or t[i]=='\n' else ' '); i+=1
    return ''.join(out)
TOP=re.compile(r'^(Definition|Fixpoint|Lemma|Theorem|Example|Record|Inductive|Section|End|Local|From|Notation|Variable|Context|Arguments|Coercion|Print|Module|Let|Open|Import|Require|Set|Unset|with)\b',re.M)
PAIRS={}
def pair(a,b): PAIRS.setdefault(a,[]).append(b); PAIRS.setdefault(b,[]).append(a)
for a,b in [('wadd','wsub'),('wadd','wmul'),('N.lxor','N.lor'),('N.land','N.lor'),('firstn','skipn'),('Nat.min','Nat.max'),('N.min','N.max'),('rol','ror'),('true','false'),('andb','orb'),
    ('N.shiftl','N.shiftr'),('wshl','wshr'),('fst','snd'),('N.add','N.sub'),('Nat.add','Nat.sub'),('existsb','forallb'),('rev','id'),('hd_error','last'),('N.eqb','N.ltb'),('Nat.eqb','Nat.ltb')]: pair(a,b)
OPS={'<?':['<=?'],'<=?':['<?'],'=?':['<=?'],'+':['-'],'-':['+'],'&&':['||'],'||':['&&'],'*':['+'],'/':['*'],'mod':['/'],'negb':['id'],'None':[],'::':[]}
TOK=re.compile(r"0x[0-9a-fA-F]+|\d+|[A-Za-z_][\w']*(?:\.[A-Za-z_][\w']*)*|<-|:=|=>|->|;;|\|\||&&|<=\?|<\?|=\?|::|\+\+|[-+*/]|\S")
KW=set('match with end if then else let in fun fix forall exists as return Some None struct at nat N bool list option'.split())
def definitions(m):
    t=open(TH+m+'.v').read(); k=mask(t)
    st=[x.start() for x in TOP.finditer(k)]+[len(k)]
    for a,b in zip(st,st[1:]):
        x=re.match(r"(Definition|Fixpoint|with)\s+([\w']+)",k[a:b])
        if not x: continue
        j=k.find(':=',a,b)
        if j<0 or re.search(r'\bProof\b',k[a:b]): continue
        yield x[2],a,j+2,b
    return
def edits(t,k,head,a,b,names):
    toks=[(x.group(),a+x.start(),a+x.end()) for x in TOK.finditer(k[a:b])]
    loc=set(re.findall(r"[A-Za-z_][\w']*",k[head:a]))|set(re.findall(r"([A-Za-z_][\w']*)\s*<-",k[a:b]))|set(re.findall(r"let\s+'?\(?([\w']+)",k[a:b]))
    loc-=KW; loc={x for x in loc if not x in('Definition','Fixpoint','with')}
    E=[]
    for i,(s,p,q) in enumerate(toks):
        if re.match(r'0x|\d',s):
            n=int(s,0)
            E.append(('literal',p,q,str(n+1)))
            if n>0: E.append(('literal',p,q,str(n-1)))
        elif s in OPS:
            for r in OPS[s]: E.append(('operator',p,q,r))
        elif s in PAIRS:
            for r in PAIRS[s]: E.append(('function',p,q,r))
        elif s=='if':
            x=re.compile(r'\bthen\b').search(k,q,b)
            if x: E.append(('condition',q,x.start(),' negb ('+t[q:x.start()].strip()+') '))
        elif re.match(r'[A-Za-z_]',s) and s not in KW:
            if s in loc:
                for r in loc:
                    if r!=s: E.append(('variable',p,q,r))
            for x,y in(('_le','_be'),('_be','_le'),('_encrypt','_decrypt'),('_decrypt','_encrypt'),('encode','decode'),('_0','_1'),('_1','_0'),('_1','_2'),('_2','_1'),('_16','_64')):
                if x in s and s.replace(x,y) in names: E.append(('name',p,q,s.replace(x,y)))
            if i+1<len(toks) and re.match(r'[A-Za-z_]',toks[i+1][0]) and toks[i+1][0] not in KW and toks[i+1][0]!=s and t[q:toks[i+1][1]].strip()=='':
                E.append(('swap',p,toks[i+1][2],toks[i+1][0]+' '+s))
            # record update field value: same kind of projection
            x=re.match(r'([a-z]+_)',s)
            if x:
                for r in names:
                    if r!=s and r.startswith(x[1]) and r in FIELDS and s in FIELDS: E.append(('field',p,q,r))
        elif s=='++':
            pass
    return E
FIELDS=set()
for m in mods:
    k=mask(open(TH+m+'.v').read())
    for x in re.finditer(r'Record\s+\w+[^{]*\{([^}]*)\}',k): FIELDS|=set(re.findall(r"([A-Za-z_][\w']*)\s*:",x[1]))
def coqc(m,wd,tmo):
    for e in('.vo','.vok','.vos','.glob'):
        p=f'{wd}/theories/{m}{e}'
        if os.path.exists(p): os.unlink(p)
    p=subprocess.run(['bash','-c',f'ulimit -v 5000000; timeout {tmo} coqc -noglob -Q theories Verif theories/{m}.v'],cwd=wd,capture_output=True,text=True)
    return p.returncode,p.stderr
def cut(path,line,ch):
    txt=open(path,'rb').read(); lines=txt.split(b'\n')
    off=sum(len(l)+1 for l in lines[:line-1])+ch
    best=None
    for mm in re.finditer(rb"^\s*(?:Local |Global )?(Lemma|Theorem|Example|Corollary|Fact|Remark|Definition|Let|Instance|Fixpoint)\s+([A-Za-z0-9_']*)",txt,re.M):
        if mm.start()<=off: best=mm
        else: break
    if not best: return None,False
    name=best.group(2).decode()
    pr=re.compile(rb'\bProof\b[^.]*\.').search(txt,best.end())
    if not pr or pr.end()>off: return name,False
    q=re.compile(rb'\b(Qed|Defined)\s*\.').search(txt,off)
    if not q or txt[best.start():q.end()].count(b'Proof')!=1: return name,False
    ends=[e.end() for e in re.finditer(rb'\.(?=\s)',txt[pr.start():off+1])]
    cutat=pr.start()+ends[-1] if ends else pr.end()
    os.unlink(path); open(path,'wb').write(txt[:cutat]+b' Admitted. '+txt[q.end():])
    return name,True
def trial(m,name,e,t,tag):
    kd,p,q,r=e
    wd=f'/tmp/am/w{W}_{tag}'; shutil.rmtree(wd,ignore_errors=True)
    subprocess.run(['cp','-rl',BASE,wd],check=True)
    f=f'{wd}/theories/{m}.v'; os.unlink(f); open(f,'w').write(t[:p]+r+t[q:])
    ctx=t[max(0,t.rfind('\n',0,p)):(t.find('\n',q)+len(t))%len(t) or q+60].strip()
    rec=dict(module=m,definition=name,kind=kd,old=t[p:q],new=r,line=t.count('\n',0,p)+1,context=ctx[:200])
    dirty={m}
    for x in mods:
        if dp[x]&dirty: dirty.add(x)
    t0=time.time(); res='SURVIVED'; skipped=[]
    for x in [y for y in mods if y in dirty]:
        tries=0
        while True:
            rc,se=coqc(x,wd,int(times.get(x,60)*3+90)); tries+=1
            if rc==0: break
            ms=list(re.finditer(r'line (\d+), characters (\d+)-(\d+):',se))
            if rc==124 or not ms: res=f'killed {x} (time/memory)'; break
            lab,ok=cut(f'{wd}/theories/{x}.v',int(ms[-1][1]),int(ms[-1][2]))
            if x.startswith('Model_') and not (('Verif.'+x,lab) in kind and kind[('Verif.'+x,lab)] in('prf','thm','lem')): res='stillborn'; break
            if ('Verif.'+x,lab) in needed and kind.get(('Verif.'+x,lab)) in('prf','thm','lem'): res=f'killed {x}.{lab}'; break
            if not ok: res=('stillborn' if kind.get(('Verif.'+x,lab))=='def' else f'killed? {x}.{lab}'); break
            skipped.append(f'{x}.{lab}')
            if tries>15: res=f'killed? {x} (many)'; break
        if res!='SURVIVED': break
    rec.update(result=res,skipped=skipped,seconds=int(time.time()-t0))
    shutil.rmtree(wd,ignore_errors=True)
    return rec
def main():
    jobs=[]
    for m in mods:
        if not m.startswith('Model_') or (ONLY and m not in ONLY): continue
        t=open(TH+m+'.v').read(); k=mask(t)
        names=set(re.findall(r"[A-Za-z_][\w']*",k))
        for d in definitions(m): jobs.append((m,t,k,names,d))
    random.Random(SEED).shuffle(jobs)
    for i,(m,t,k,names,(name,head,a,b)) in enumerate(jobs):
        if i%NW!=W: continue
        rng=random.Random(f'{SEED}-{m}-{name}')
        E=edits(t,k,head,a,b,names)
        if not E: continue
        # balance the kinds
        kinds={}
        for e in E: kinds.setdefault(e[0],[]).append(e)
        done=0; tries=0
        while done<PER and tries<8*PER and any(kinds.values()):
            kd=rng.choice([x for x in kinds if kinds[x]]); e=kinds[kd].pop(rng.randrange(len(kinds[kd]))); tries+=1
            r=trial(m,name,e,t,i)
            if r['result']=='stillborn': continue
            done+=1
            with open(OUT,'a') as g: g.write(json.dumps(r)+'\n')
main()
