exec(open('/tmp/w/addnotes.py').read()); exec(open('/tmp/w/addprops.py').read())
add_props([dict(id="C69",title="The SQL statements for triple patterns select, add and delete exactly the intended triples",
statement="In an SQLite database with the tables of osp-core: querying a pattern (each of subject, predicate and object given or left open) on the table of relationships, of types or of a datatype returns exactly the stored triples that fit the pattern, with their components in the order in which they are read; removing a pattern deletes exactly the stored triples that fit it; adding a triple stores exactly that triple besides those already there, or is rejected by a key; the lookup of a uid or an entity finds its index, and if it is unknown inserts it under a new index without changing any triple; initialising a database creates all tables with the columns these statements use, empty, leaves existing tables as they are, and may be repeated.",
quantifier="all databases with the tables, all patterns and triples (scalar and vector values), all iteration orders of the sets of conditions, all sets of datatypes whose table names are distinct and free of backquotes",
why_tests_cant="it is a statement about the meaning of generated query texts over all databases and all patterns: a wrong join column only shows on databases with particular indexes",
anchors=["osp/core/session/db/sql_wrapper_session.py: _construct_query, _get_conditions, _construct_remove_condition, _add, _get_values, _get_cuds_idx, _get_entity_idx, _load_namespace_indexes, _initialize, COLUMNS, DATATYPES, PRIMARY_KEY, FOREIGN_KEY, INDEXES","osp/core/session/db/sql_util.py: SqlQuery, expand_vector_cols, expand_vector_condition","osp/wrappers/sqlite/sqlite_session.py: _db_select, _db_delete, _db_insert, _db_create"])])
save({"C69":("proved","SqlTriple.v models the construction of the queries and conditions; the texts are those of SqlText.v, read and executed by the SQL reader of SqlRead.v (C67), so the theorems go from the pattern to the rows. C69_select_{rels,types,data}, C69_remove_{rels,types,data}, C69_add_{rel,type,data}, C69_cuds_index, C69_entity_index, C69_namespaces, C69_initialize. Hypotheses: the tables exist (established by C69_initialize), one index per uid and per entity (kept by C69_cuds_index and C69_entity_index), generated indexes are new, the comparison of the database is symmetric and transitive. C69_example* meets them on a database created and filled by the statements.")})
p='/verif/DESIGN.md';s=open(p).read()
row="| C69 | SqlTriple.v: _construct_query, _get_conditions, _construct_remove_condition, _add, the index lookups and _initialize as query objects and texts; PropSqlTriple.v: specification in terms of joined rows (stored_rel, stored_type, stored_data), by C67 and case analysis over patterns, vectors by the expansion of C36. |\n"
assert "| C69 |" not in s
i=s.index("\n## Trusted base")
s=s[:i].rstrip("\n")+"\n"+row+s[i:]
open(p,'w').write(s)
