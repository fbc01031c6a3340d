exec(open('/tmp/w/addnotes.py').read()); exec(open('/tmp/w/addprops.py').read())
add_props([dict(id="C70",title="Ontology2dot draws exactly the entities of the namespaces, their superclasses and inverses",
statement="The drawing of a list of namespaces has exactly one node for each entity of these namespaces and for each entity reached from them by direct superclasses and by inverses with a name that was not generated, and no other nodes; each node has its attributes or datatype in its label, is filled iff its namespace was given, and lies in the cluster of its namespace iff grouping was asked for, with exactly the needed clusters. There is one is_a edge for each drawn entity and each of its direct superclasses, and no other; inverse edges only join a relationship to its different inverse, at most one for each pair in either direction, never lead to a generated name, and every drawn pair of which neither name is generated has one. (For a relationship and its generated inverse the edge depends on the order in which the namespace yields them.) Drawing ends, cyclic hierarchies included.",
quantifier="all ontologies (class hierarchies with cycles, any inverses that pair up), all lists of namespaces, all orders of entities, grouped or not",
why_tests_cant="the traversal is recursive over an arbitrary ontology with shared and cyclic superclasses: tests draw one ontology in one order",
anchors=["osp/core/tools/ontology2dot.py: Ontology2Dot.render, _add_namespace, _add_entity, _add_oclass, _add_relationship, _add_attribute, _get_subgraph, _add_edge"])])
save({"C70":("proved","OntoDot.v models the traversal over an abstract ontology. C70_nodes, C70_is_a, C70_inverse, C70_clusters for every finished drawing; C70_terminates: enough fuel always finishes. Hypothesis: the inverse of the inverse of a relationship is the relationship (C23: where the inverse declarations pair up). C70_order_refuted: the edge to a generated inverse depends on the order of iteration. C70_hinv and C70_example: a drawing with a cyclic hierarchy, inverses, attributes and clusters.")})
p='/verif/DESIGN.md';s=open(p).read()
row="| C70 | OntoDot.v: Ontology2Dot over an abstract ontology, with fuel; PropOntoDot.v: what one call adds to a drawing (record grew) by induction on fuel; termination by the number of entities not visited. |\n"
assert "| C70 |" not in s
i=s.index("\n## Trusted base")
s=s[:i].rstrip("\n")+"\n"+row+s[i:]
open(p,'w').write(s)
