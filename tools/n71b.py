exec(open('/tmp/w/addnotes.py').read()); exec(open('/tmp/w/addprops.py').read())
import json
P=[json.loads(l) for l in open('/verif/properties.jsonl')]
p=[x for x in P if x['id']=='C71'][0]
st=p['statement'].replace("This holds as long as the session's knowledge","Opening an existing database again, also with more datatypes than before, finds exactly the same triples; clearing the database leaves no triple, and the session can be used as with a new database. This holds as long as the session's knowledge")
assert st!=p['statement']
an=[a.replace("_construct_remove_condition, _initialize","_construct_remove_condition, _initialize, _clear_database").replace("_db_delete","_db_delete, _get_table_names") for a in p['anchors']]
add_props([],upd={"C71":{"statement":st,"anchors":an}})
m=json.load(open('/verif/MANIFEST.json'))
n=[c for c in m['claims'] if c['property']=='C71'][0]['note']
n=n.replace("a new database is a starting point.","a new database is a starting point; C71_reopen: an existing database opened again, also with additional datatypes; C71_clear: after clearing no triple is left and the session is as with a new database (the clearing of the registry and the transaction around it are not part of this theorem).")
save({"C71":("proved",n)})
