import json
P=[]
def p(title, statement, quantifier, why, *anchors):
    P.append(dict(id="C%02d"%(len(P)+1), title=title, statement=statement, quantifier=quantifier, why_tests_cant=why, anchors=list(anchors)))

# --- transport
p("Transport frames round-trip",
  "Whatever command, JSON payload and list of files a client sends, the server's decoder recovers exactly that command, payload and the files (names and bytes, in order), and consumes exactly the bytes of that message from the stream, leaving whatever follows untouched.",
  "all commands, payloads, file lists with non-empty names, and all following bytes that fit the fixed-width length fields",
  "payload sizes are unbounded and the split points depend on every residue modulo the block size; a test samples a few lengths",
  "osp/core/session/transport/communication_utils.py: encode_header, decode_header, split_message, join_message, encode_files, decode_files, receive_files", "osp/core/session/transport/communication_engine.py")
p("Message headers are unambiguous and never truncated",
  "Encoding a header either raises because a field does not fit its declared width, or yields a byte string of exactly the declared total width from which decoding returns the same fields; a field is never silently cut.",
  "all field lists and all declared widths",
  "the boundary (10^width) moves with every width and field",
  "osp/core/session/transport/communication_utils.py: encode_header, decode_header, LEN_HEADER")
p("Block splitting is lossless",
  "Splitting a message into blocks and joining them gives the message back; every block has at most 4096 characters, the announced number of blocks is the number produced and an empty message is announced consistently.",
  "all messages of any length", "all lengths including exact multiples of the block size",
  "osp/core/session/transport/communication_utils.py: split_message, join_message, BLOCK_SIZE")
p("The server only runs public session methods",
  "A remote client can only trigger the handshake, initialisation, loading, or a method that is defined by the wrapped session, is not private and is not part of the generic wrapper-session interface, and the latter two only on a connection that has been initialised; everything else is answered with an error message and changes no session.",
  "all command strings, payloads and connection states", "an attacker picks the command string; all strings must be covered",
  "osp/core/session/transport/transport_session_server.py: TransportSessionServer.handle_request, _run_command, _load_from_session, _init_session")
p("Server connections are isolated",
  "A request or disconnect on one connection never changes the session of another connection, for every interleaving of requests of many clients; disconnecting closes exactly that connection's session.",
  "all histories of requests and disconnects over all connection ids", "interleavings are unbounded",
  "osp/core/session/transport/transport_session_server.py: handle_disconnect, handle_request, session_objs")
p("Files are only skipped when the peer already has them",
  "After a sequence of file transfers with the hash filter, for every file that was ever announced the peer's copy under that name has the content of the last announced version; a file is left out of a message only if the last transmitted version of that name has the same content (assuming collision-free hashing).",
  "all sequences of transfers with arbitrary file names and contents", "depends on the whole transfer history",
  "osp/core/session/transport/transport_utils.py: check_hash, get_hash_dir", "osp/core/session/transport/communication_utils.py: filter_files")
p("Serialised values are recovered",
  "Deserialising the serialised form of a value built from None, strings, numbers, uuids, ontology entities, lists and dictionaries gives the value back, provided no user dictionary looks like a tagged uuid/entity or a JSON-LD node; the exceptions are exactly those dictionaries.",
  "all nested values of unbounded depth", "structural recursion over unbounded nested values",
  "osp/core/session/transport/transport_utils.py: serializable, deserialize")
p("Client buffers are replayed faithfully on the server",
  "Serialising a session's pending changes and deserialising them in the peer makes the peer's copies of all added and updated objects equal to the sender's, removes the deleted ones, classifies them in the same pending-change buffers, leaves other objects alone and clears the sender's buffers.",
  "all pending changes and all peer states that contain the objects the sender updated", "depends on all registry/buffer states of two peers",
  "osp/core/session/transport/transport_utils.py: serialize_buffers, deserialize_buffers, _serializable, _to_cuds_object", "osp/core/utils/wrapper_development.py: create_from_triples")

# --- core graph
p("Relationships are always bidirectional",
  "In a session, after any sequence of creating, adding, removing, attribute-setting and deleting, object a is connected to b by relationship r if and only if b is connected to a by r's inverse, including sequences in which some calls raise.",
  "all histories of user operations, all ontologies with an involutive inverse", "the invariant must survive every operation order, including failing calls",
  "osp/core/cuds.py: Cuds.add, Cuds.remove, _add_direct, _add_inverse, _remove_direct, _remove_inverse", "osp/core/session/session.py: delete_cuds_object")
p("add() links exactly the requested objects",
  "a.add(b1..bn, rel=r) in one session adds exactly the links (a,r,bi) and (bi,r^-1,a), changes nothing else, returns the objects in order; it raises ValueError exactly when some bi is already connected by r (earlier or within the call), in which case exactly the links of the preceding arguments have been made.",
  "all sessions, argument lists and relationships", "frame condition over the whole graph",
  "osp/core/cuds.py: Cuds.add, _add_direct, _add_inverse")
p("remove() removes exactly the matching links",
  "a.remove(...) removes exactly the links from a to the matching objects by the matching relationships, with their inverse links, and nothing else; it raises RuntimeError exactly if nothing matches, changing nothing.",
  "all sessions, uid lists, relationship and class filters", "frame condition over the whole graph, all filters",
  "osp/core/cuds.py: Cuds.remove, _get, _get_by_uids, _get_by_oclass")
p("get() by uid is positional",
  "a.get(u1..un, rel=r) returns a list of length n whose i-th entry is the object with uid ui if a is connected to it by a sub-relationship of r and None otherwise, for any list of uids including repetitions; a single uid gives the element itself.",
  "all uid lists, graphs and relationships", "relationship order and repeated uids interact in the search loop",
  "osp/core/cuds.py: Cuds.get, Cuds.iter, _get, _get_by_uids, _load_cuds_objects")
p("get() by relationship and class is exact",
  "a.get(rel=r, oclass=c) returns, without repetition, exactly the objects connected to a by a sub-relationship of r that have a class which is a subclass of c.",
  "all graphs and ontologies", "set equality over arbitrary graphs",
  "osp/core/cuds.py: Cuds.get, _get_by_oclass", "osp/core/neighbor_dict.py")
p("Attribute assignment is local and readable back",
  "After x.attr = v, reading x.attr gives the converted v, and every other attribute of x, every relationship and every other object is unchanged; there is exactly one value.",
  "all session states, attributes and values", "frame condition over the whole graph",
  "osp/core/cuds.py: Cuds.__setattr__, __getattr__, get_attributes")
p("Deleting an object leaves no trace",
  "After delete_cuds_object(x) no triple of the session mentions x as subject, and no remaining object has a relationship to x; all links not involving x and all other objects are untouched.",
  "all session states satisfying the bidirectionality invariant", "quantifies over the whole graph",
  "osp/core/session/session.py: Session.delete_cuds_object, _delete_cuds_triples")
p("prune() removes exactly the unreachable objects",
  "After prune(rel) the session contains exactly the objects that were reachable from the root through (sub-relationships of) rel, none of them changed otherwise, and, for prune(), no dangling reference is left.",
  "all graphs, including cyclic ones", "reachability over arbitrary cyclic graphs",
  "osp/core/session/session.py: prune, _get_full_graph", "osp/core/session/registry.py: prune, _get_not_reachable, get_subtree")
p("Search finds exactly the matching reachable objects",
  "find_cuds_object(criterion, root, rel, find_all=True) returns, once each, exactly the objects reachable from root via sub-relationships of rel that satisfy the criterion, and terminates on cyclic graphs; find_all=False returns one of them or None if there is none; with max_depth=d it should return those within distance d.",
  "all graphs, criteria, neighbour orders, depths", "cyclic graphs of any shape and every iteration order",
  "osp/core/utils/simple_search.py: find_cuds_object, _iter")
p("Subtree traversal is exact",
  "registry.get_subtree(root, rel, skip) returns exactly root plus the objects reachable from it through rel without entering skipped objects, and terminates on cycles.",
  "all graphs and skip sets", "cyclic graphs of any shape",
  "osp/core/session/registry.py: get_subtree")
p("Copying between sessions leaves the source alone",
  "Adding or updating with an object of another session never changes the source session: no link, attribute or object of it changes, whatever the target contains.",
  "all pairs of sessions", "frame over a second session",
  "osp/core/cuds.py: add, update, _recursive_store", "osp/core/utils/wrapper_development.py: create_recycle, clone_cuds_object, create_from_cuds_object")
p("Adding from another session copies the active subtree",
  "a.add(b) with b from another session whose reachable objects are new to the target gives the target a copy of everything reachable from b via active relationships, with same uids, classes, attributes and mutual links, and keeps the target bidirectional.",
  "all source graphs (cyclic included) and target graphs", "recursion over arbitrary cyclic graphs",
  "osp/core/cuds.py: _recursive_store, _fix_neighbors", "osp/core/utils/wrapper_development.py: create_recycle")
p("Updating from another session keeps the target bidirectional",
  "After update() with a changed version of contained objects, all links of the target session still come in inverse pairs.",
  "all pairs of sessions that were bidirectional before", "depends on diff of two arbitrary graphs",
  "osp/core/cuds.py: _fix_neighbors, _fix_new_parents, _fix_old_neighbors")

# --- ontology
p("Subclass queries compute the closure",
  "For every ontology graph, also with cycles and blank nodes, subclasses/superclasses terminate and return exactly the entities in the reflexive-transitive closure of the direct subclass relation (through named, registered entities), and is_subclass_of and is_superclass_of are converse; subclassing is transitive.",
  "all ontology graphs", "cyclic graphs of any shape",
  "osp/core/ontology/entity.py: OntologyEntity.subclasses, superclasses, _transitive_hull, _directly_connected, is_subclass_of, is_superclass_of")
p("Every relationship has an inverse, and inverse is an involution",
  "rel.inverse terminates and always returns a relationship, asking again returns the same one, rel.inverse.inverse is rel, other relationships' inverses are not changed by asking, also when the inverse has to be created; holds for ontologies with at most one named inverse per relationship and non-colliding names.",
  "all ontology graphs and query orders", "creation of inverses mutates the ontology; orders unbounded",
  "osp/core/ontology/relationship.py: OntologyRelationship.inverse, _add_inverse")
p("Created inverses mirror the hierarchy",
  "If relationship r is a subclass of s, then a created inverse of r is a subclass of the inverse of s; in particular inverses of active relationships are passive ones.",
  "all ontology graphs", "closure over mutated graph",
  "osp/core/ontology/relationship.py: _add_inverse")

# --- wrapper sessions
p("Pending-change buffers are disjoint and net",
  "After any history of user operations on a wrapper session since the last commit, an object is in at most one of the buffers added/updated/deleted; added objects are unknown to the backend, deleted ones were known, and every object whose triples differ from the backend is in some buffer.",
  "all operation histories", "histories are unbounded",
  "osp/core/session/wrapper_session.py: _notify_update, _notify_delete, _notify_add / _store", "osp/core/session/buffers.py")
p("Backend activity never pollutes user changes",
  "Everything done while the backend is loading (engine context) leaves the user's pending-change buffers untouched, and the context is restored afterwards even when loading raises or contexts are nested.",
  "all nested sequences of context entries, exits and notifications", "nesting depth unbounded, exceptions anywhere",
  "osp/core/session/buffers.py: EngineContext, EngineContextIterator, get_buffer_context_mngr, DoNotAllow")
p("Refresh never discards user changes",
  "expire()/expire_all() never mark an object with pending changes; only known objects are expired; before an expired object is read or modified it is reloaded, and reloading does not touch objects that were not expired.",
  "all session states and histories", "interleavings of expire, modify, read unbounded",
  "osp/core/session/wrapper_session.py: expire, expire_all, refresh, _expire, load, _notify_read")
p("Commit makes the backend equal to the session",
  "After a successful commit the backend's triples of all added/updated objects are exactly the session's triples, deleted objects are gone, all other backend triples are unchanged and the buffers are empty; commit twice is the same as once.",
  "all histories of user operations and commits", "unbounded histories",
  "osp/core/session/db/db_wrapper_session.py: commit, _init_transaction, _rollback_transaction", "osp/core/session/db/triplestore_wrapper_session.py: _apply_added, _apply_updated, _apply_deleted")
p("A failed commit changes nothing and can be retried",
  "If the backend raises during commit, the backend is rolled back to its state before the commit and the user's pending changes are still in the buffers, so that commit() can be retried.",
  "all failure points in commit", "crash point quantification",
  "osp/core/session/db/db_wrapper_session.py: commit")
p("Loading is positional and faithful",
  "session.load(u1..un) yields n results in order; the i-th is the object with uid ui if the session or backend knows it, and None otherwise; objects already loaded and not expired are returned without contacting the backend, all others are fetched in one batch.",
  "all registries, expiry sets, backends, uid lists", "merges two iterators for arbitrary interleaving",
  "osp/core/session/wrapper_session.py: load, _load_from_backend", "osp/core/session/session.py: load")
p("The backend's root is the session's root",
  "Replacing the wrapper's IRI by the zero IRI on store and back on load is lossless for every triple not mentioning the zero IRI.",
  "all triples, including literals", "literals that look like IRIs",
  "osp/core/session/db/triplestore_wrapper_session.py: _substitute_root_iri, _substitute_zero_iri, _load_from_backend")

# --- sql
p("The relational tables are a faithful triple store",
  "Adding and removing triples through the SQL layer and loading an object gives exactly the set of triples added and not removed for that object, for every sequence; the split in CUDS/ENTITIES/TYPES/RELATIONS/DATA tables is invisible.",
  "all sequences of adds and removes of representable triples", "refinement over unbounded histories",
  "osp/core/session/db/sql_wrapper_session.py: _add, _remove, _triples, _load_triples_for_iri, _get_cuds_idx, _get_ns_idx")
p("Vector columns round-trip",
  "Expanding vector columns to scalar columns and contracting the rows again yields the original values, for every mix of scalar and vector columns and every shape.",
  "all column lists, datatypes and shapes", "index arithmetic over all shapes",
  "osp/core/session/db/sql_util.py: expand_vector_cols, expand_vector_condition, contract_vector_values, handle_vector_item", "osp/core/session/db/sql_wrapper_session.py")
p("SQL identifiers are checked",
  "No table name, column name or datatype containing a forbidden character reaches an SQL statement: the check raises if and only if some nested string contains a forbidden character.",
  "all nested argument structures and strings", "all strings at all nesting positions",
  "osp/core/session/db/sql_util.py: check_characters")
p("Data table names determine the datatype",
  "The datatype of a literal can be recovered from the name of the table it is stored in, and two different datatypes never share a table.",
  "all datatype IRIs", "injectivity over all strings",
  "osp/core/session/db/sql_util.py: get_data_table_name, determine_datatype")
p("Query conditions mean conjunction and bind the right parameters",
  "The SQL text and parameter dictionary generated for nested conditions bind each placeholder to the value given for it.",
  "all condition trees", "prefix collisions appear only for some sizes",
  "osp/core/session/db/sql_util.py: SqlQuery, AndCondition", "osp/wrappers/sqlite/sqlite_session.py: _get_condition_pattern, _sql_list_pattern")
p("Schema migration preserves the data",
  "Migrating a database of an older schema version to the current one preserves all objects, types, relations and attribute values.",
  "all old databases", "all table contents",
  "osp/core/session/db/sql_migrate.py")

# --- installation
p("Ontologies are installed after their requirements",
  "When several ontologies are installed together, they are installed in an order in which all requirements come first, none is lost or duplicated, and installation fails with an error exactly if some requirement can never be met (missing or cyclic).",
  "all sets of parsers with arbitrary requirement graphs", "all requirement graphs",
  "osp/core/ontology/installation.py: _sort_for_installation, _get_parsers / install")
p("Failed (un)installation does not lose ontologies",
  "If install/uninstall/install_overwrite raises, the installed ontologies and the in-memory registry are as before; success of uninstall removes exactly the named ontologies and is refused if others depend on them.",
  "all registries and arguments", "all failure points",
  "osp/core/ontology/installation.py: OntologyInstallationManager.uninstall, _install, _get_remaining_parsers / _get_replaced_parsers")

# --- datatypes, misc
p("Datatype IRIs are parsed back",
  "For every vector datatype and shape, the generated datatype IRI determines shape and element type, and flattening then reshaping a value is the identity; STRING length limits are enforced exactly.",
  "all shapes and element types", "all shapes",
  "osp/core/ontology/datatypes.py: convert_to, convert_from, to_numpy_array, parse_vector...; osp/core/ontology/yml/yml_parser.py: _add_datatype")
p("Query results can be consumed in any order",
  "Whatever mixture of iteration, first(), one(), all(), containment tests is applied to a query result, all() equals the complete result in the original order, first() is its first element (None if empty), one() raises exactly if the number of elements is not one, and the backend iterator is consumed at most once.",
  "all interleavings of calls", "interleavings unbounded",
  "osp/core/session/result.py: QueryResult")
p("uid and IRI are interchangeable",
  "uid_from_iri(iri_from_uid(u)) = u, distinct uids have distinct IRIs, and is_cuds_iri accepts exactly the IRIs made from uids in canonical form.",
  "all 128-bit uids and all strings", "2^128 uids",
  "osp/core/utils/general.py: iri_from_uid, uid_from_iri", "osp/core/session/db/sql_wrapper_session.py / wrapper_session.py: CUDS_IRI_PREFIX")
p("Entity lookup resolves to the right namespace",
  "from_iri resolves an IRI to the namespace with a matching prefix, and the stored namespaces file is read back to the same bindings.",
  "all sets of namespaces and IRIs", "order of registration and prefixes of prefixes",
  "osp/core/ontology/namespace_registry.py: from_iri, _get_namespace_name_and_iri, store, load")
p("Old upper-case names keep working",
  "For every entity name in ALL_CAPS with underscores, converting it to camelCase and looking it up under its old spelling returns the converted entity.",
  "all names over letters, digits, underscore", "all strings",
  "osp/core/ontology/yml/case_insensitivity.py: get_case_insensitive_alternative", "osp/core/tools/yaml2camelcase.py: toCamelCase")
p("YAML validation accepts exactly the documented format",
  "validate(ontology) succeeds exactly on documents matching the format's grammar and fails otherwise, for documents of any nesting depth, and always terminates.",
  "all YAML documents", "unbounded nested documents",
  "osp/core/ontology/yml/yml_validator.py: validate, _validate, _validate_format, _check_namespace")
p("Cardinality constraints are enforced for every object",
  "validate_tree_against_schema raises if and only if some object of the tree violates a relationship or attribute cardinality of its class in the data model, or a mandatory entity is missing.",
  "all trees and data models", "all trees",
  "osp/core/utils/schema_validation.py: validate_tree_against_schema, _load_data_model, _traverse_tree_and_group_all_objects_by_oclass, _check_cuds_object_cardinality, _interpret_cardinality_value_from_constraints")
p("File objects get a unique stable name",
  "Transferring a file object stores it under a name starting with its uid; transferring it again keeps that name; files of different objects never overwrite each other.",
  "all uids and base names", "all names",
  "osp/core/session/transport/transport_utils.py: move_files, _convert_path_of_file_cuds")
p("Class attributes are the inherited ones and defaults are nearest",
  "The constructor of an ontology class demands exactly the attributes without default defined on the class and its superclasses, rejects every other keyword, and uses the given value or the default.",
  "all class hierarchies and keyword dictionaries", "all hierarchies",
  "osp/core/ontology/oclass.py: _get_attributes_values, attributes, get_attribute_by_argname, __call__")
open('/verif/properties.jsonl','w').write("".join(json.dumps(x)+"\n" for x in P))
print(len(P))
