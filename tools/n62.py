exec(open('/tmp/w/addnotes.py').read()); exec(open('/tmp/w/addprops.py').read())
import json
P=[json.loads(l) for l in open('/verif/properties.jsonl')]
p=[x for x in P if x['id']=='C62'][0]
st=p['statement'].replace("changes no object, pending change or stored triple.","changes no object, pending change or stored triple; with find_all=False (and by uid) it returns one of them, loaded, or None if and only if there is none.",1)
assert st!=p['statement']
add_props([],upd={"C62":{"statement":st}})
save({"C62":("proved","C62_find (search with lazily loaded children, any relationship and criterion on uids), C62_find_first, C62_find_by_uid (find_all=False: the children not needed are not loaded; WrapperFirst.v), C62_full_graph, C62_wrapper (equal to the export of the in-memory session), C62_union (ontology part and custom datatypes); restriction as C62_unlinked_refuted.")})
