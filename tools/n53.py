exec(open('/tmp/w/addnotes.py').read()); exec(open('/tmp/w/addprops.py').read())
add_props([],upd={"C53":{"statement":"delete_cuds_object_recursively(x, rel) ends for every graph, deletes exactly the objects reachable from x through (sub-relationships of) rel, and leaves every other object with all its triples except its links to deleted objects; links stay in inverse pairs. With max_depth=d only objects at most d steps away are deleted; any d > 0 deletes all direct neighbours; and a depth of at least the number of objects minus one is no restriction."}})
save({"C53":("proved","For every graph, relationship and enumeration order; with max_depth soundness and exact frame (completeness is limited as in C17: C53_max_depth_neighbours and C53_max_depth_enough say where it holds).")})
