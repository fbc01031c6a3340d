import json
exec(open('/tmp/w/addnotes.py').read())
P='/verif/properties.jsonl'
L=[json.loads(l) for l in open(P)]
for d in L:
    if d['id']=='C32':
        d['statement']=d['statement'].replace(" Exceptions (exhibited)"," Adding a literal that cannot be converted or whose datatype has no table raises instead of losing it. Exceptions (exhibited)")
open(P,'w').write(''.join(json.dumps(d,ensure_ascii=False)+'\n' for d in L))
M=json.load(open('/verif/MANIFEST.json'))
n={c['property']:c for c in M['claims']}
save({"C32":(n["C32"]["status"],n["C32"]["note"]+" C32_unstorable_refused: no silent loss of literals.")})
