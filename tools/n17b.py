exec(open('/tmp/w/addnotes.py').read()); exec(open('/tmp/w/addprops.py').read())
import json
P=[json.loads(l) for l in open('/verif/properties.jsonl')]
p=[x for x in P if x['id']=='C60'][0]
st=p['statement'].rstrip()
st=st.replace("its neighbours are in it if d is positive,","its neighbours are in it if d is positive, an object is in it if no path without repetitions to it has more than d links,")
add_props([],upd={"C60":{"statement":st}})
save({"C17":("partial","Exact without max_depth (find_all and first). With max_depth: soundness in general (both modes); completeness for every object to which no path without repetitions is longer than the limit (C17_max_depth_paths, both modes; TraversePaths.v: the tree of the depth-first walk), hence for graded graphs, for a depth of at least the number of objects less one (C17_max_depth_enough), and for root and its direct neighbours (C17_max_depth_neighbours); C17_depth_example meets the hypotheses where an object is first visited on its longer path; completeness in general is refuted (C17_refuted_max_depth).")})
