import json
L=[json.loads(l) for l in open('/verif/properties.jsonl')]
U={
'C01':('statement','Whatever non-empty command, JSON payload and list of files a client sends (completely), the server\'s decoder recovers exactly that command, payload and the files (names and bytes, in order), and consumes exactly the bytes of that message from the stream, leaving whatever follows untouched; the same holds for responses. What can be sent is exactly what fits the length fields. Exceptions (exhibited): an empty command is sent but not decodable, and a client-side error in the middle of sending leaves a partial message on the wire.'),
'C08':('quantifier','all pending changes and all peer states that know the objects the sender updated or deleted and do not know those it added (an added object the peer already knows keeps old triples: exhibited)'),
'C09':('quantifier','all histories of user operations on objects of the session (not on handles of deleted objects), all ontologies with an involutive inverse in which every relationship is below cuba.relationship (both provisos are needed: exhibited)'),
'C14':('statement','After x.attr = v, reading x.attr gives the converted v, and every other attribute of x, every relationship and every other object is unchanged; there is exactly one value. (An object constructed twice under one uid has two values until the attribute is assigned: exhibited.)'),
'C15':('quantifier','all session states satisfying the bidirectionality invariant in which all relationships in use are below cuba.relationship (needed: exhibited)'),
'C16':('statement','After prune(rel) the session contains exactly the objects that were reachable from the root through (sub-relationships of) rel, none of them changed otherwise, and, for prune() without argument, no dangling reference is left (prune(rel) can leave some: exhibited).'),
'C22':('statement','For every ontology graph, also with cycles and blank nodes, subclasses/superclasses terminate and return exactly the entities in the reflexive-transitive closure of the direct subclass relation (through named, registered entities), and is_subclass_of and is_superclass_of are converse for entities not related to the OWL top and bottom entities; subclassing is transitive. Exceptions (exhibited): owl:Thing and owl:topDataProperty.'),
'C24':('statement','If relationship r is a subclass of s through registered relationships, then a created inverse of r is a subclass of the inverse of s, provided the declared inverses respect the hierarchy themselves; in particular inverses of active relationships are passive ones. (Without the proviso it fails: exhibited.)'),
'C32':('statement','Adding and removing triples through the SQL layer and querying or loading an object gives exactly the set of triples added and not removed for that object, for every sequence of one session, and after reopening the database; the split in CUDS/ENTITIES/TYPES/RELATIONS/DATA tables is invisible. Exceptions (exhibited): queries after the rollback of a failed commit within the same session, two sessions that introduce a namespace at the same time, untyped literals, entity objects of predicates other than rdf:type, strings that look like numbers.'),
'C33':('statement','Expanding vector columns to scalar columns and contracting the rows again yields the original values, for every mix of scalar and vector columns and every shape with at least one element, if no column name ends in ___ and a number (both needed: exhibited).'),
'C35':('statement','The datatype of a literal can be recovered from the name of the table it is stored in, and two different datatypes never share a table, for the standard datatypes and all custom datatypes whose name does not imitate a table prefix (needed: exhibited).'),
'C36':('statement','The SQL text and parameter dictionary generated for nested conditions mean the conjunction of the conditions and bind each placeholder to the value given for it, if only conjunctions of plain comparisons have more than ten members (this covers everything osp-core builds; beyond it fails: exhibited).'),
'C37':('statement','Migrating a database of the older schema version to the current one preserves all objects, types, relations and attribute values, for databases that hold only tables of the old schema and entities whose name is their IRI suffix; a failed migration changes nothing and unknown entities make it fail. (Exceptions exhibited: entities referenced by label, databases that are current already or mixed.)'),
'C38':('statement','When several ontologies are installed together, they are installed in an order in which all requirements come first, none is lost or duplicated, and installation fails with an error exactly if some requirement can never be met (missing or cyclic), for identifiers and requirements spelled in lower case. (Requirements are compared case-sensitively, and OWL packages that state requirements are refused: exhibited.)'),
'C40':('statement','For every vector datatype and non-empty shape, the generated datatype IRI determines shape and element type, and flattening then reshaping a value is the identity; positive STRING length limits are enforced exactly. (STRING:0 is unlimited and a vector without shape cannot be used: exhibited.)'),
'C41':('statement','Whatever mixture of iteration (one iterator at a time), first(), one(), all(), containment tests is applied to a query result, all() equals the complete result in the original order, first() is its first element (None if empty), one() raises exactly if the number of elements is not one (for elements other than None), and the backend iterator is consumed at most once. (Interleaved iterators lose elements and one() misbehaves on None: exhibited.)'),
'C48':('statement','The attributes of a class are those declared on it or a superclass, by domain or by restriction; the constructor demands exactly the attributes that some superclass restricts without giving a default itself, rejects every other keyword (up to lower-casing), and uses the given value or a default some superclass gives. (Exceptions to what one would expect are exhibited: not the nearest default is used, a default in a subclass does not make an obligatory attribute optional, falsy defaults, names that differ in case only.)'),
}
for d in L:
    if d['id'] in U: k,v=U[d['id']]; d[k]=v
    if d['id']=='C48': d['title']='Class attributes are the inherited ones'
new=[
dict(id='C53',title='Recursive deletion removes exactly the subtree',statement='delete_cuds_object_recursively(x, rel) ends for every graph, deletes exactly the objects reachable from x through (sub-relationships of) rel, and leaves every other object with all its triples except its links to deleted objects; links stay in inverse pairs. With max_depth=d only objects at most d steps away are deleted.',quantifier='all consistent sessions whose relationships are below cuba.relationship, cyclic graphs included, all rel and depths',why_tests_cant='all graphs, cycles and enumeration orders',anchors=['osp/core/utils/general.py: delete_cuds_object_recursively','osp/core/session/session.py: delete_cuds_object']),
dict(id='C54',title='Detaching an object removes exactly its links',statement='remove_cuds_object(x) never raises, removes exactly the links from and to x (in both directions), keeps x with its classes and attributes, and a following prune() deletes x, unless x is the root, and keeps exactly what is still reachable from the root.',quantifier='all consistent sessions whose relationships are below cuba.relationship (needed: exhibited), objects with self links and several links to one neighbour included',why_tests_cant='all graphs',anchors=['osp/core/utils/general.py: remove_cuds_object','osp/core/cuds.py: iter, remove']),
dict(id='C55',title='Searches by class, attribute and relationship are exact',statement='get_relationships_between(a, b) is the set of relationships from a to b; find_cuds_objects_by_oclass, find_cuds_objects_by_attribute and find_relationships return exactly the objects reachable from the root that are instances of the class, have the value, or have the relationship (or, if asked, a subrelationship), each once; the registry\'s filters return exactly the objects of the session with the property. (filter_by_oclass compares one class of an object only: an object with two classes is found under one of them, exhibited.)',quantifier='all consistent sessions, cyclic graphs included',why_tests_cant='all graphs and enumeration orders',anchors=['osp/core/utils/simple_search.py','osp/core/session/registry.py: filter','osp/core/utils/general.py: get_relationships_between']),
]
ids={d['id'] for d in L}
L+= [d for d in new if d['id'] not in ids]
L.sort(key=lambda d:d['id'])
open('/verif/properties.jsonl','w').write(''.join(json.dumps(d)+'\n' for d in L))
