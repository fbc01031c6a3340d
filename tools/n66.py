exec(open('/tmp/w/addnotes.py').read()); exec(open('/tmp/w/addprops.py').read())
add_props([
dict(id="C66",title="Utilities for wrapper developers change exactly one object",
 statement="get_neighbor_diff(a, b) lists exactly the neighbours, with their relationships, that a has and b lacks (all, active only or non-active only), none twice. change_oclass on an object without neighbours gives it exactly the new class and attributes and changes no other object; arguments that do not fit the class change nothing. create_recycle with an unused uid creates the object; with a used one and fix_neighbors=False it replaces the object's triples by the new class and attributes and leaves everything else, including the links of others to it; with fix_neighbors=True, whenever it returns, the links to the object are gone as well and the session stays bidirectional. It returns if the arguments fit, none of the object's relationships is a subclass of another one and the object is not linked to itself. Restrictions: otherwise create_recycle can raise a RuntimeError, depending on the iteration order of a set, after the links are gone; change_oclass on an object with neighbours leaves one-sided links; create_recycle with arguments that do not fit raises after removing the links.",
 quantifier="all sessions, objects, classes, arguments, ontologies and iteration orders",
 why_tests_cant="whether create_recycle raises depends on the iteration order of a Python set; that nothing else changes has to hold for all graphs",
 anchors=["osp/core/utils/wrapper_development.py: get_neighbor_diff, create_recycle, change_oclass","osp/core/neighbor_dict.py: NeighborDictRel, NeighborDictTarget"]),
])
save({"C66":("proved","C66_neighbor_diff, C66_change_oclass, C66_change_oclass_error, C66_recycle_new/_keep/_fix/_fix_returns; the restrictions as C66_subrelationships_refuted, C66_neighbours_refuted, C66_arguments_refuted.")})
d=open('/verif/DESIGN.md').read()
if "| C66 |" not in d:
    d=d.replace("\n## Trusted base","| C66 | WrapDev on Cuds | PropWrapDev | the set of relationships as any permutation; induction over it with the session invariant and the exact effect of remove() |\n\n## Trusted base",1)
    d=d.replace("|\n\n| C66","|\n| C66")
open('/verif/DESIGN.md','w').write(d)
