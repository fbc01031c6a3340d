exec(open('/tmp/w/addnotes.py').read()); exec(open('/tmp/w/addprops.py').read())
add_props([dict(id="C68",title="Attribute values survive the columns of an SQLite database",
statement="A value of an attribute that is written to an SQLite database is read back unchanged, and a condition with a value finds exactly the rows with an equal value: for all booleans, all 64-bit integers, all floats except NaN, all uids, all strings with a maximal length, and all strings without maximal length that do not have the form of a number. (The columns for strings without maximal length, including entity names, are declared REAL: a string that looks like a number, such as the postcode 01067, is stored as a number and comes back as the text of a float. NaN and larger integers raise an error.)",
quantifier="all values of all scalar datatypes (the elements of vectors have the same column types), all implementations of floats",
why_tests_cant="the values are unbounded, and whether a value survives depends on its text matching the grammar of SQLite's number literals",
anchors=["osp/wrappers/sqlite/sqlite_session.py: _to_sqlite_datatype, _db_create, _db_insert","osp/core/ontology/datatypes.py: convert_to, convert_from","osp/core/session/db/sql_wrapper_session.py: DATATYPES, _do_db_insert"])])
save({"C68":("proved","SqlStore.v: the storage rules of SQLite (column affinity, numeric texts) as specification, the column types and conversions of osp-core as model; floats are abstract. C68_roundtrip and C68_found for all storable values; C68_strings says exactly what happens to every string; the exceptions in the statement are C68_digits_refuted, C68_nan_refuted, C68_big_int_refuted.")})
p='/verif/DESIGN.md';s=open(p).read()
row="| C68 | SqlStore.v: affinity rules of SQLite as specification, column types of sqlite_session.py and conversions of datatypes.py as model; case analysis over datatypes, numeric texts as a regular language. |\n"
assert "| C68 |" not in s
i=s.index("\n## Trusted base")
s=s[:i].rstrip("\n")+"\n"+row+s[i:]
open(p,'w').write(s)
