exec(open('/tmp/w/addnotes.py').read()); exec(open('/tmp/w/addprops.py').read())
add_props([dict(id="C75",title="Refreshing follows what other users did to the database",
statement="In an idle session of a database, refresh(u) of a loaded object u without uncommitted changes gives u exactly the triples the database now holds of it, whatever the session held; no other object loses a triple, and at most a class known to the database is added to objects u links to. The objects that are read again on their next use are then exactly those that were before, without u, and (unless u is the wrapper) the loaded objects without uncommitted changes that became or ceased to be a neighbour of u by some relationship. If the database no longer has u, u leaves the session with all its links, nothing else changes, and its loaded former neighbours without uncommitted changes are read again on their next use; after that use no link of theirs to u is left when the database mentions u no more. An object that is not loaded or has uncommitted changes is not refreshed. The user's uncommitted changes are never touched.",
quantifier="all session states, all backends (unrelated to what the session holds), all objects",
why_tests_cant="the database may have been changed in any way by other users since the objects were loaded",
anchors=["osp/core/session/wrapper_session.py: WrapperSession.refresh, load, _expire_neighour_diff, _get_old_cuds_object_clone","osp/core/session/db/db_wrapper_session.py: DbWrapperSession._expire_neighour_diff","osp/core/session/db/triplestore_wrapper_session.py: _load_by_iri"])])
save({"C75":("proved","One object per refresh; Wrapper.v with an arbitrary backend graph in which the uid of the wrapper does not occur (it is stored as 0). C75_refresh, C75_refresh_deleted, C75_not_refreshed, C75_neighbour_follows (the hypothesis that no class of the objects concerned is a wrapper class is the store check: one wrapper per session); C75_example: another user deleted a city and moved its citizen.")})
p='/verif/DESIGN.md';s=open(p).read()
row="| C75 | Wrapper.v with an unrelated backend graph: one refresh computed exactly (triples, registry, expired set, buffers) for known and for deleted objects; composition with the next read of a neighbour; PropRefresh.v. |\n"
i=s.index("\n## Trusted base")
s=s[:i].rstrip("\n")+"\n"+row+s[i:]
open(p,'w').write(s)
