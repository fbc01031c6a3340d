exec(open('/tmp/w/addnotes.py').read()); exec(open('/tmp/w/addprops.py').read())
import json
P=[json.loads(l) for l in open('/verif/properties.jsonl')]
p=[x for x in P if x['id']=='C43'][0]
st=p['statement'].replace("binding a namespace keeps","in a namespace referenced by label an entity is named by one of its labels; inverses are found of relationships only; get_entity needs exactly one dot; binding a namespace keeps")
assert st!=p['statement']
st=st.replace("gives back the same bindings.","gives back the same bindings, found by name, also if the last line break is missing.")
add_props([],upd={"C43":{"statement":st}})
m=json.load(open('/verif/MANIFEST.json'))
n=[c for c in m['claims'] if c['property']=='C43'][0]['note']
save({"C43":("proved",n+" C43_label_is_name, C43_inverse_of_relationship, C43_get_entity, C43_load_unterminated, C43_loaded_found: names by label, inverses, names with dots, loading.")})
import json
L=json.load(open('/tmp/w/muts14.json'))
S=[L[i] for i in range(len(L))]
logs=[json.loads(l) for l in open('/tmp/w/muts14.log')]
keep=[L[i] for i in (18,20,29,30,31)]
for k in keep: print(k['def'])
json.dump(keep,open('/tmp/w/muts18.json','w'))
