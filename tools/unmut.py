import re,json,glob,os
T='/verif/rocq/theories/'
log=[json.loads(l) for l in open('/verif/seeded/LOG.jsonl')]
names=set()
for l in log:
    for w in re.findall(r"[A-Za-z_][\w']*",json.dumps(l.get('definition',''))): names.add(w)
for f in sorted(glob.glob(T+'*.v')):
    b=os.path.basename(f)[:-2]
    if b.startswith('Prop') or b.endswith('Proofs'): continue
    s=open(f).read()
    ds=re.findall(r"^\s*(?:Definition|Fixpoint|with)\s+([\w']+)",s,re.M)
    un=[d for d in ds if d not in names]
    if un: print(b,len(ds),':',' '.join(un))
