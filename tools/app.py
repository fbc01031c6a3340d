import json,sys
# usage: app.py log tightjson ; appends valid killed mutants
seen=set()
P='/verif/seeded/LOG.jsonl'
for l in open(P):
    d=json.loads(l); seen.add((d.get('definition'),d.get('edit')))
n=0
tight=json.loads(sys.argv[2]) if len(sys.argv)>2 else {}
with open(P,'a') as f:
    for i,l in enumerate(open(sys.argv[1])):
        d=json.loads(l)
        if 'result' in d: print('skip',i,d['result']); continue
        if (d['definition'],d['edit']) in seen: print('dup',i); continue
        t=tight.get(str(i))
        if not d['claims_failed'] and not t:
            print('SURVIVOR/INVALID',i,d['definition'],d['edit'][:80],d['failed'][:2]); continue
        if t: d['tightened']=t.get('tightened',[]); d['note']=t.get('note','')
        f.write(json.dumps(d)+'\n'); n+=1
print(n)
