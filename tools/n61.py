exec(open('/tmp/w/addnotes.py').read()); exec(open('/tmp/w/addprops.py').read())
add_props([
dict(id="C61",title="load_by_oclass returns what the database holds of a class",
 statement="On a session that is the only user of its database, if no stored object of the class (or a subclass) has pending changes, load_by_oclass(c) returns exactly the objects that the database holds with class c or one of its subclasses, each once if objects have one class; all of them are loaded and not expired afterwards, and no object, pending change or stored triple changes. After a successful commit the result is therefore every object of the class that the session or the database knows. Without a root it raises RuntimeError. Restriction: pending changes of stored objects of the class are overwritten (the old value is then committed), objects deleted since the last commit come back and objects added since then are not found.",
 quantifier="all histories of a session, databases, ontologies, classes and iteration orders",
 why_tests_cant="histories and databases are unbounded; which objects are loaded, expired or pending depends on the whole history",
 anchors=["osp/core/session/db/db_wrapper_session.py: DbWrapperSession.load_by_oclass","osp/core/session/db/triplestore_wrapper_session.py: TripleStoreWrapperSession._load_by_oclass, _load_from_backend, _load_by_iri","osp/core/session/result.py: returns_query_result"]),
])
save({"C61":("proved","C61_exact (result, order-independent, and frame), C61_after_commit, C61_no_root; restrictions as C61_pending_lost_refuted and C61_uncommitted_refuted. The result is consumed at once (lazy consumption: C41).")})
