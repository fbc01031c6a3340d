exec(open('/tmp/w/addnotes.py').read()); exec(open('/tmp/w/addprops.py').read())
add_props([dict(id="C67",title="Generated SQL text is read as the intended statement",
statement="For all table, column and alias names without a backquote or NUL character (spaces, semicolons, quotes, comment signs and non-ASCII characters are allowed), all values and all conditions (nested conjunctions of equalities and joins in which only conjunctions of plain comparisons have more than ten members), the text that the SQLite session sends for a query with at least one column, an insertion, an update, a deletion, the creation of a table with its indexes, or the removal of a table is read by the database as exactly one statement of the intended kind on the intended tables and columns, with every parameter bound to its value. Executing it has the intended effect: a query returns exactly the combinations of rows that meet its condition, in the requested columns, and changes nothing; a deletion removes and an update changes exactly the rows of the table that meet the condition; an insertion adds one row with each value in its column; a table is created with exactly the given columns if it does not exist. Conditions given to where() one after the other all have to hold; join() rejects an alias that is already used. (A name with a backquote is not rejected and can make a deletion empty another table; a query without columns is not valid SQL.)",
quantifier="all names over all characters except backquote and NUL, all lists of columns and values, all nestings and enumerations of conditions, all database contents, all comparison functions and row constraints of the database",
why_tests_cant="names, nestings of conditions, numbers of columns and database contents are unbounded, and quoting mistakes only show for unusual names",
anchors=["osp/wrappers/sqlite/sqlite_session.py: _db_select, _db_create, _db_insert, _db_update, _db_delete, _db_drop, _get_condition_pattern, _sql_list_pattern, _to_sqlite_datatype","osp/core/session/db/sql_util.py: SqlQuery, EqualsCondition, JoinCondition, AndCondition"])])
save({"C67":("proved","SqlText.v models the text generation; SqlRead.v is a separate specification of how SQLite reads (lexer with quoting, comments and parameters; parser) and runs the statements. C67_reads_*: the text of each statement is read as the intended one; C67_select/insert/update/delete/drop/create: its effect on every database. C67_where, C67_join: query objects. The restrictions in the statement are needed: C67_backquote_refuted, C67_no_columns_refuted. Names are compared exactly (SQLite ignores ASCII case); uniqueness and foreign keys are an arbitrary function of the database.")})
p='/verif/DESIGN.md';s=open(p).read()
row="| C67 | SqlText.v renders the statements of sqlite_session.py character by character; SqlRead.v (specification) lexes, parses and runs SQL texts; read(text) is proved to be the intended statement for all clean names by composing lexing lemmas, the effect by combining with the parameter bindings of C36. |\n"
assert "| C67 |" not in s
i=s.index("\n## Trusted base")
s=s[:i].rstrip("\n")+"\n"+row+s[i:]
open(p,'w').write(s)
