exec(open('/tmp/w/addnotes.py').read()); exec(open('/tmp/w/addprops.py').read())
add_props([
dict(id="C50",title="A YAML ontology is read as written",
 statement="Parsing a document in the YAML format of OSP-core succeeds exactly when every superclass, inverse, attribute and default relationship can be found (superclasses of the own namespace under their exact name, other references also in the old upper-case spelling), every entity descends from exactly one of class, relationship and attribute and uses only the keys of that kind, attributes of classes are attributes, datatypes exist, at most one entity or the document mentions a default relationship, and no entity is its own ancestor. The graph then holds the old triples, exactly those the document says (labels, descriptions, the OWL types of all ancestors, superclasses, inverses, default relationship, ranges) and the attribute restrictions; the result does not depend on the order of entities or keys. Parsing ends on every document without cyclic superclasses and does not end on one whose only fault is a cycle. A document outside the format changes nothing; any other failure keeps all old triples and bindings. The document's namespace is bound, no other binding changes. (Assumes that the document's namespace IRI is kept apart from the IRIs of the other namespaces, that it is not referenced by label, and ends with # or /.)",
 quantifier="all documents, prior graphs, bindings, orders of entities, and choices among equally labelled IRIs",
 why_tests_cant="documents, graphs and superclass hierarchies are unbounded; the type of an entity depends on all its ancestors, also those that are loaded later; non-termination",
 anchors=["osp/core/ontology/yml/yml_parser.py: YmlParser.parse, _parse_ontology, _load_entity, _get_iri, _get_iri_case_insensitive, _add_type_triple, _add_superclass, _validate_entity, _set_inverse, _set_datatype, _assert_default_relationship_occurrence, _check_default_rel_definition_on_ontology, _check_default_rel_flag_on_entity","osp/core/ontology/yml/case_insensitivity.py: get_case_insensitive_alternative"]),
dict(id="C51",title="A class gets exactly the attributes its YAML document declares",
 statement="After an accepted YAML document every class has exactly the attributes and default values it had before and those the document declares for it: each declaration uses new blank nodes that are all different, so no two declarations are mixed up; the attributes of all classes stay readable (one property per restriction, one value per default). A class that is new to the graph has exactly the declared attributes; those without default value are mandatory.",
 quantifier="all documents, prior graphs and enumeration orders of rdflib",
 why_tests_cant="any number of classes, attributes and documents parsed one after the other",
 anchors=["osp/core/ontology/yml/yml_parser.py: YmlParser._add_attributes, _add_attribute","osp/core/ontology/oclass.py: OntologyClass._get_attributes, attributes"]),
])
save({"C50":("proved","YmlSpec.v states references, ancestors, kinds, acceptance and triples without the parser's functions. C50_exact (soundness and the exact graph), C50_accepts (completeness), C50_ends/C50_cycle_hangs (termination both ways), C50_order, C50_invalid, C50_keeps, C50_binds, C50_one_kind. Examples: own superclasses in another spelling give KeyError, failures leave triples behind, 'default_rel: false' counts, 'INT:5' gives AssertionError."),
"C51":("proved","C51_attributes over any prior graph whose blank nodes are used up to a counter (an invariant that parsing preserves), C51_new_class connects it with the attributes of C48.")})
