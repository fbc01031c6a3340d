exec(open('/tmp/w/addnotes.py').read()); exec(open('/tmp/w/addprops.py').read())
add_props([
dict(id="C52",title="An OWL ontology is loaded as its description says",
 statement="Loading the YAML description of an OWL file succeeds when the file can be read and every active relationship is an object property of the file or the graph. The graph then holds exactly the old triples, a copy of the file's triples whose blank nodes are new, one subproperty triple per active relationship and, for each namespace, the default relationship and the reference style; the namespaces are bound under their lower-case names, with # appended to an IRI that does not end with # or /, and the reported names agree. Active relationships and everything below them are then active; the default relationship is the described one if the namespace had none. A description with a dot in the identifier, with an unknown key (also 'requirements') or without namespaces, and a file that cannot be read, change nothing. An active relationship that is no object property gives ValueError and leaves the file's triples, the bindings and the earlier active relationships behind. No load, successful or not, removes a triple or binding or reuses a blank node.",
 quantifier="all descriptions, files, prior graphs, bindings and sequences of loads",
 why_tests_cant="files, graphs and histories of loads are unbounded; blank nodes of different files must stay apart for every history",
 anchors=["osp/core/ontology/parser.py: Parser.parse, _parse, _parse_rdf, _parse_yml, _add_cuba_triples, _add_default_rel_triples, _add_reference_style_triples, get_identifier, get_namespace_names, get_requirements","osp/core/ontology/namespace.py: OntologyNamespace.get_default_rel"]),
])
save({"C52":("proved","C52_exact (bindings, result and exact graph), C52_bad_active, C52_refused, C52_unreadable, C52_accepted (necessity), C52_namespaces (through the registry of C43), C52_keeps (any document and outcome), C52_fresh (any sequence of documents), C52_active (through the closure of C47), C52_default. The text parsers of rdflib are an arbitrary function from file and format to a graph or an error. Examples: two descriptions of one namespace give an ambiguous default relationship, failures are not atomic, requirements are refused."),
"C50":("proved","YmlSpec.v states references, ancestors, kinds, acceptance and triples without the parser's functions. C50_exact (soundness and the exact graph), C50_accepts (completeness), C50_ends/C50_cycle_hangs (termination both ways), C50_order, C50_invalid, C50_keeps, C50_binds, C50_one_kind; C50_reading states what the accessors of the specification read from a document. Examples: own superclasses in another spelling give KeyError, failures leave triples behind, 'default_rel: false' counts, 'INT:5' gives AssertionError.")})
