exec(open('/tmp/w/addnotes.py').read()); exec(open('/tmp/w/addprops.py').read())
add_props([
dict(id="C64",title="Several users of one database",
 statement="Several sessions can be connected to one database. Nothing but commit() changes the database, and no operation of one session changes what another one holds, has pending or has marked as expired. A commit of one session - whatever the others have committed in the meantime - succeeds, stores its changed objects exactly as the session holds them (links to its root as links to the common root), removes its deleted ones, adds its new ones to what is stored under their uids, and leaves every other stored object as it is. So an object's stored triples change only by commits of sessions that have pending changes of it; and what one user commits of an object is what every other user reads the next time she reads her expired copy of it, as long as nobody else committed changes of the same object in between. Restriction: when two sessions have pending changes of the same object, the later commit replaces the earlier one; this concerns the common root whenever two users add something to their wrapper, except in a user's first commit, which adds her links to the stored ones.",
 quantifier="all numbers of sessions, all interleavings of their operations (each operation atomic), all database contents",
 why_tests_cant="the outcome depends on the interleaving of the sessions' operations, on what each has loaded, expired and pending at the moment of each commit",
 anchors=["osp/core/session/db/db_wrapper_session.py: DbWrapperSession.commit, _store","osp/core/session/db/triplestore_wrapper_session.py: _apply_added, _apply_updated, _apply_deleted, _load_by_iri, _substitute_root_iri","osp/core/session/wrapper_session.py: _notify_read, refresh, _expire, expire_all"]),
])
save({"C64":("proved","C64_isolation, C64_untouched, C64_commit, C64_no_lost_update, C64_first_commit_keeps_root for all schedules; the restriction as C64_same_object_refuted (two users each add an object to their wrapper: the first user's link from the root is lost, its inverse stays). Operations are atomic in the model: the database serialises transactions (trusted).")})
d=open('/verif/DESIGN.md').read()
d=d.replace("\n## Trusted base","| C64 | Shared on Wrapper | PropShared | sessions numbered by nat share the stored triples; every session of a reachable state is one of Wrapper's histories (the others' commits are external changes); frame lemma for the calls a commit makes; C27_read_is_fresh for reading |\n\n## Trusted base",1) if "| C64 |" not in d else d
d=d.replace("|\n\n| C64","|\n| C64")
open('/verif/DESIGN.md','w').write(d)
