exec(open('/tmp/w/addnotes.py').read()); exec(open('/tmp/w/addprops.py').read())
add_props([dict(id="C74",title="Equality and hashes of cuds objects",
statement="At any moment == is an equivalence relation on the cuds objects of all sessions, and equal objects have the same hash, so that membership in sets and dictionaries is membership in the list of their elements. Two Python objects of one session are equal if and only if they have the same uid. Objects of different sessions with at most one known class each are equal if and only if they have the same uid and the same known class; in particular the copies that add() makes in another session equal their originals. Whatever else is created, added, removed, assigned or deleted, and in whichever order the graph is enumerated, such an object stays equal to exactly the objects it was equal to; a handle of a deleted object equals only handles with its uid and without known class. Exceptions (exhibited): an object of several classes may be unequal to its exact copy in another session, and creating an object with a uid that the session has already adds a class and may so change what it is equal to.",
quantifier="all sessions, handles, classes, histories of operations and enumeration orders of the graphs",
why_tests_cant="the result depends on the order in which the graph enumerates the types; stability ranges over all histories",
anchors=["osp/core/cuds.py: Cuds.__eq__, __hash__, oclass, oclasses","osp/core/ontology/entity.py: OntologyEntity.__eq__, __hash__"])])
save({"C74":("proved","Equal.v over the sessions of Cuds.v and CudsX.v, with the enumeration order of types as a parameter. C74_equivalence, C74_hash, C74_same_session, C74_across_sessions, C74_kept (histories), C74_copies_are_equal (with C20_add_copies), C74_deleted; C74_several_classes_refuted, C74_created_again_refuted: the exceptions named in the statement. C74_example: hypotheses met and not met by concrete sessions.")})
p='/verif/DESIGN.md';s=open(p).read()
row="| C74 | Equal.v: oclasses, oclass, __eq__, __hash__ over handles of several sessions, any enumeration order; PropEqual.v: types are kept by every operation on other objects (induction over the history), copies by C20. |\n"
assert "| C74 |" not in s
i=s.index("\n## Trusted base")
s=s[:i].rstrip("\n")+"\n"+row+s[i:]
open(p,'w').write(s)
