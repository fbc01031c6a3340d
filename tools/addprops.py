import json
def add_props(new,upd={}):
    L=[json.loads(l) for l in open('/verif/properties.jsonl')]
    for d in L:
        for k,v in upd.get(d['id'],{}).items(): d[k]=v
    ids={d['id'] for d in new}
    L=[d for d in L if d['id'] not in ids]+new
    L.sort(key=lambda d:d['id'])
    open('/verif/properties.jsonl','w').write(''.join(json.dumps(d)+'\n' for d in L))
