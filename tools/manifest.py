import json,re,glob
# theorem names in Prop*.v by property prefix
thms={}
for f in sorted(glob.glob('/verif/rocq/theories/Prop*.v')):
    for m in re.finditer(r'^\s*Theorem\s+((C\d+)_\w+)',open(f).read(),re.M):
        thms.setdefault(m.group(2),[]).append(m.group(1))
notes=json.load(open('/verif/notes.json')) if False else {}
exec(open('/tmp/w/notes.py').read())
claims=[]
for l in open('/verif/properties.jsonl'):
    p=json.loads(l)['id']
    t=thms.get(p,[])
    if t:
        st,note=NOTES.get(p,("proved",""))
        claims.append(dict(property=p,status=st,theorems=t,note=note))
    else:
        print("no theorem for",p)
json.dump(dict(claims=claims),open('/verif/MANIFEST.json','w'),indent=1)
print(len(claims),"claims")
