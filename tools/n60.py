exec(open('/tmp/w/addnotes.py').read()); exec(open('/tmp/w/addprops.py').read())
import json
P=[json.loads(l) for l in open('/verif/properties.jsonl')]
p=[x for x in P if x['id']=='C60'][0]
st=p['statement'].rstrip()+" With a limited depth d the export holds the first object and only objects at most d links of the relationship away; its neighbours are in it if d is positive, everything reachable is in it if d is at least the number of objects less one, and the objects in it are copied exactly."
add_props([],upd={"C60":{"statement":st}})
save({"C60":("proved","C60_copy, C60_copy_wrapper (exact target session, both kinds), C60_copy_depth (limited max_depth: an object may be left out although it is within the limit, because the walk marks objects as visited on a longer way first: see C17), C60_twice (importing is idempotent), C60_again (export of the import), C60_consistent, C60_sessions (the hypotheses hold of every session reachable by API calls); restrictions as C60_dangling_refuted and C60_overwrite_refuted. The JSON text is C07.")})
