"""Mutation test of the model: python3 mutate.py list.json log.jsonl
Each entry: file, def, old, new, claim.  Runs in /tmp/mut/rocq, a scratch copy."""
import json,subprocess,sys,re,os,shutil,time
SRC=os.environ.get('MUTSRC','/verif/rocq'); DST=os.environ.get('MUTDST','/tmp/mut/rocq')
def sh(c,t=None):
    try:
        p=subprocess.run(c,shell=True,stdout=subprocess.PIPE,stderr=subprocess.STDOUT,timeout=t,text=True)
        return p.stdout
    except subprocess.TimeoutExpired as e:
        return (e.stdout.decode() if isinstance(e.stdout,bytes) else (e.stdout or ''))+'\nTIMEOUT'
STMT=re.compile(r'^\s*(?:Local\s+|Global\s+)?(Lemma|Theorem|Example|Corollary|Instance|Definition|Fixpoint|Inductive|Record|Fact)\s+(\w+)')
def enclosing(path,line):
    L=open(path).read().split('\n')
    i=line-1
    while i>=0:
        m=STMT.match(L[i])
        if m: return L,i,m.group(1),m.group(2)
        i-=1
    return L,None,None,None
def admit(path,line):
    L,i,kind,name=enclosing(path,line)
    if i is None or kind in('Definition','Fixpoint','Inductive','Record'): return kind,name,False
    # find Proof
    j=i
    while j<len(L) and not re.search(r'\bProof\b',L[j]): 
        j+=1
    k=j
    while k<len(L) and not re.search(r'\b(Qed|Defined)\.',L[k]): k+=1
    if j>=len(L) or k>=len(L) or line-1<j and line-1!=j: 
        return kind,name,False
    head=L[j][:re.search(r'\bProof\b',L[j]).start()]
    tail=re.sub(r'.*\b(Qed|Defined)\.','',L[k])
    n=k-j
    new=[head+'Admitted.'+tail]+['']*n
    open(path,'w').write('\n'.join(L[:j]+new+L[k+1:]))
    return kind,name,True
def deps(only):
    # C-theorems in Prop files
    out={}
    for f in sorted(os.listdir(DST+'/theories')):
        if f.startswith('Prop') and f.endswith('.v'):
            out[f[:-2]]=re.findall(r'^\s*Theorem (C\d\d_\w+)',open(DST+'/theories/'+f).read(),re.M)
    return out
def run(m,idx):
    t0=time.time()
    os.makedirs(os.path.dirname(DST),exist_ok=True)
    sh(f'rm -rf {DST}; cp -a {SRC} {DST}')
    p=f'{DST}/theories/{m["file"]}.v'
    s=open(p).read()
    if s.count(m['old'])<1: return dict(m,result='EDIT NOT FOUND')
    s=s.replace(m['old'],m['new'],1) if not m.get('all') else s.replace(m['old'],m['new'])
    open(p,'w').write(s)
    failed=[];note=''
    for it in range(m.get('iters',7)):
        out=sh(f'cd {DST} && make -k -j2 COQC="timeout 240 coqc" {m.get("targets","")} 2>&1',m.get('timeout',1500))
        errs=re.findall(r'File "\./theories/(\w+)\.v", line (\d+), characters [^\n]*\n(Error[^\n]*(?:\n(?!make|File)[^\n]*){0,3})',out)
        errs=[(f,l,e) for f,l,e in errs if 'Warning' not in e[:8]]
        if 'TIMEOUT' in out: note='timeout'
        for f in set(re.findall(r'theories/(\w+)\.vo\] Error 124',out)):
            o=sh(f'cd {DST} && timeout 100 coqc -time -Q theories Verif theories/{f}.v 2>&1')
            ends=[int(x) for x in re.findall(r'^Chars \d+ - (\d+) ',o,re.M)]
            if ends:
                src=open(f'{DST}/theories/{f}.v','rb').read()[:ends[-1]+1].decode()
                errs.append((f,str(src.count('\n')+1),'Error: the proof script no longer ends'))
        if not errs: break
        progress=False; seen=set()
        for f,l,e in errs:
            if (f,l) in seen: continue
            seen.add((f,l))
            kind,name,ok=admit(f'{DST}/theories/{f}.v',int(l))
            failed.append(f'{f}.{name}' + ('' if ok else f' ({kind}: {e[:80]})'))
            progress|=ok
        if not progress: note='stopped at a definition or statement'; break
    # which C theorems depend on admitted statements
    dep=[]
    admitted=[x.split('.')[1] for x in failed if ' ' not in x]
    if admitted:
        D=deps(None); lines=['Set Printing Width 2000.'];mods=[]
        for f,ths in D.items():
            if os.path.exists(f'{DST}/theories/{f}.vo') and os.path.getmtime(f'{DST}/theories/{f}.vo')>t0-1:
                mods.append(f)
                for th in ths: lines.append(f'Goal True. idtac "##{f}.{th}". exact I. Qed. Print Assumptions {f}.{th}.')
        open(''+os.path.dirname(DST)+'/chk.v','w').write('From Verif Require '+' '.join(mods)+'.\n'+'\n'.join(lines)+'\n')
        o=sh(f'cd {DST} && coqc -Q theories Verif -o {os.path.dirname(DST)}/chk.vo {os.path.dirname(DST)}/chk.v',900)
        cur=None
        for ln in o.split('\n'):
            if ln.startswith('##'): cur=ln[2:].strip()
            else:
                mm=re.match(r'^(?:\w+\.)*(\w+)\s*(?::|$)',ln)
                if cur and mm and mm.group(1) in admitted and cur.split('.')[1] not in dep: dep.append(cur.split('.')[1])
    cfail=[x.split('.')[1] for x in failed if re.match(r'\w+\.C\d\d_',x) and ' ' not in x]
    return {'definition':m['file']+'.'+m['def'],'edit':m.get('edit') or (m['old']+'  ==>  '+m['new']),'claim':m['claim'],'failed':failed,
      'claims_failed':sorted(set(dep)|set(cfail)),'note':note,'tightened':[],'seconds':round(time.time()-t0)}
if __name__=='__main__':
    ms=json.load(open(sys.argv[1]))
    for i,m in enumerate(ms):
        r=run(m,i)
        open(sys.argv[2],'a').write(json.dumps(r)+'\n')
        print(json.dumps(r)[:600],flush=True)
