exec(open('/tmp/w/addnotes.py').read()); exec(open('/tmp/w/addprops.py').read())
add_props([dict(id="C71",title="The SQL session, down to its SQL texts, is a set of triples",
statement="Starting with a newly created database, whatever sequence of triples is added, removed by patterns and read by patterns, every read returns exactly the triples that fit the pattern among those added and not removed since, and no operation fails: each operation is carried out by the SQL texts the session builds, including the statements that look up and create the indexes of objects, entities and namespaces. Adding a triple twice is the same as adding it once (up to repetition of values in the answers), looking things up adds no triple, and reading or removing everything about a subject covers all tables. This holds as long as the session's knowledge of the namespaces is that of the database: a second session that opened the database before the first one added a namespace gives it a second index and misses triples.",
quantifier="all histories of additions, removals and reads, all triples and patterns (relationships, types, values and vectors in any number of data tables), all iteration orders of sets, all databases that generate fresh keys",
why_tests_cant="the effect of one statement depends on all rows written before, on indexes created on demand and on cached namespaces: tests run a few operations on one database",
anchors=["osp/core/session/db/sql_wrapper_session.py: _add, _remove, _triples, _get_cuds_idx, _get_entity_idx, _get_ns_idx, _get_ns, _load_namespace_indexes, _split_namespace, _rows_to_triples, _queries_for_subject, _construct_query, _construct_remove_condition, _initialize","osp/wrappers/sqlite/sqlite_session.py: _db_select, _db_insert, _db_delete"])])
save({"C71":("proved","SqlSession.v runs every database access as the text of the statement through the reader of C67. C71_add, C71_remove, C71_query: one operation; C71_subject: all tables of a subject; C71_history: any sequence against the same operations on a set; C71_initialize: a new database is a starting point. Assumed of SQLite (record rules): values that compare equal are identified, NULL is never a component, generated keys are fresh, a uniqueness error in the tables of relationships and types means the row exists. C71_second_session_refuted: a cache that lacks a namespace. C71_example_hypotheses, C71_example_proper, C71_example: a concrete database and history. A rollback also leaves the cache stale (C32).")})
p='/verif/DESIGN.md';s=open(p).read()
row="| C71 | SqlSession.v: the session as a sender of the statement texts of C67/C69, with the cached namespaces; PropSqlSession.v: an invariant on all tables (unique keys, references, namespaces), preserved by every operation; simulation by a set of triples, induction on histories. |\n"
assert "| C71 |" not in s
i=s.index("\n## Trusted base")
s=s[:i].rstrip("\n")+"\n"+row+s[i:]
open(p,'w').write(s)
