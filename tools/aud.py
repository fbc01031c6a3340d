import json,sys,re,glob
ids=sys.argv[1:]
P={}
for l in open('/verif/properties.jsonl'):
    d=json.loads(l); P[d['id']]=d
M={c['property']:c for c in json.load(open('/verif/MANIFEST.json'))['claims']}
T={}
for f in sorted(glob.glob('/verif/rocq/theories/Prop*.v')):
    s=open(f).read()
    for m in re.finditer(r'^\s*Theorem (C\d\d_\w+)(.*?)\n?\s*Proof\b',s,re.M|re.S):
        pre=s[:m.start()]
        c=re.search(r'\(\*\*((?:(?!\*\)).)*)\*\)\s*$',pre,re.S)
        T.setdefault(m.group(1)[:3],[]).append((f.split('/')[-1],m.group(1),re.sub(r'\s+',' ',m.group(2)),re.sub(r'\s+',' ',c.group(1)) if c else ''))
for i in ids:
    d=P[i]
    print('=====',i,M[i]['status'],d['title']); print('S:',d['statement']); print('Q:',d['quantifier']); print('N:',M[i]['note'])
    for f,n,t,c in T.get(i,[]): print(' *',f,n,t); 
