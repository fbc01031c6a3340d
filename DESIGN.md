# A Rocq (Coq 8.16.1) model of simphony/osp-core

## Method

* The model is *shallow and executable*: each Python function becomes a total
  Gallina function that mirrors it branch by branch.  A Python exception is a
  value (`Err e`); where an exception leaves effects behind (e.g. `Cuds.add`
  failing on its third argument) the model returns the state *with* those effects.
* The iteration order of Python sets and of rdflib graphs is not fixed.  Where the
  order can matter the model takes the enumeration as an argument and the theorems
  quantify over it; elsewhere the result is a set.
* Loops whose termination is not structural run on explicit fuel and return a
  distinguished `OutOfFuel`; the theorems state that it cannot occur for the fuel
  the model uses (that is the termination claim).
* The code outside of osp-core (rdflib, sqlite, numpy, json, websockets, yaml,
  rdflib-jsonld, the user's session class) is a parameter of the model or a
  concrete functional model of the operation used.  Where a theorem needs an
  assumption on such a parameter, the assumption is a hypothesis in its statement
  and is instantiated by an `Example` beside it.
* `theories/Xxx.v` holds the model (every definition cites file and lines in /repo
  and names its simplifications) and lemmas; `theories/PropXxx.v` holds a small
  specification, the theorems `Cnn_name`, examples that meet the hypotheses, and
  `Print Assumptions`.
* Suffixes: `_partial` marks a theorem that proves only part of a property;
  `_refuted` (or `refuted_…`) is a theorem that exhibits a concrete state in which
  the unrestricted claim is false of the code.  A property with `_refuted`
  theorems is listed as `proved` if the property's statement in
  `properties.jsonl` contains the restriction that excludes these states, and as
  `partial` if it does not.
* `seeded/LOG.jsonl` records wrong programs: an edit of one model definition, the
  lemmas that stop compiling and the theorems that rest on them
  (`tools/mutate.py`: rebuild, admit what fails, repeat, then `Print Assumptions`
  of every theorem).

## Plan per property

| id | model | theorems | how |
|----|-------|----------|-----|
| C01-C03 | Utf8, Proto | PropTransport | messages and byte lists; encoder against decoder on a stream; induction on blocks |
| C04, C05 | Server | PropTransport | request state machine over an abstract session class; invariants and non-interference over histories |
| C06, C47 | Files | PropTransport | hash tables of both peers; file names; simulation over transfers |
| C07 | Serial (Text, Uuid, Namespace) | PropSerial | nested values; induction; exact set of values that survive |
| C08 | Buffers on Wrapper | PropBuffers | pending changes of one session replayed by another in any order |
| C09-C15 | Cuds, CudsProofs | PropCuds | triple set and registry; inductive invariants over operation sequences; exact frame |
| C16-C18 | Traverse, TraversePaths | PropTraverse, PropDepth | DFS with visited set over any enumeration; reachability closure; with a depth limit the tree of first visits, along which a path without repetitions is followed |
| C19-C21 | CudsX, CudsXProofs, CudsXStep, CudsXLoop | PropCross | `_recursive_store` over any number of sessions; loop invariant, termination measure |
| C22 | Onto | PropOnto | worklist closure with termination measure |
| C23, C24 | Inverse | PropOnto | graph-mutating creation of inverses over query histories |
| C25-C27, C30 | Wrapper, WrapperProofs, WrapperRefine, WrapperOps, WrapperOps2 | PropWrapper, PropCommit | notification state machine, refinement of lazy sessions to in-memory sessions |
| C28, C29, C31 | WrapperCommit, Uuid | PropCommit, PropUuid | commit with failure points; the backend as a triple set; root substitution on text |
| C32 | Sql | PropSql | tables refine a triple set over histories of adds, removes, queries, sessions |
| C33-C36 | SqlUtil | PropSqlUtil | list and string functions |
| C37 | Migrate on Sql | PropMigrate | table transformation against the set of triples an old database stands for |
| C38, C39 | Install | PropInstall | topological sorting, installation with failure points |
| C40 | Datatype | PropDatatype | formatting/parsing, nested array flatten/reshape |
| C41 | QueryResult | PropQuery | iterator state machine, histories |
| C42 | Uuid | PropUuid | hexadecimal codec for 128-bit numbers |
| C43 | Namespace | PropNamespace | prefix match over registration order, store/load |
| C44 | Names | PropNames, PropNamespace | string transducers |
| C45 | Validator | PropValidator | document tree against an inductive grammar; regular expressions by derivatives |
| C46 | Schema | PropSchema | tree grouping and cardinality check |
| C48, C49 | OClass | PropOClass | attributes over the superclass closure, constructor arguments, datatypes |
| C50, C51 | Yml, YmlProofs, YmlSpec, YmlLink, YmlTerm, YmlTop on Onto, Namespace, Validator | PropYml | the parser as a state monad over the graph; an invariant of added triples; refinement of a relational specification |
| C52 | Owl | PropOwl | the OWL part of the parser against a set of triples |
| C53–C55 | Utils on Cuds, Traverse | PropUtils | recursive deletion, detaching, relationships between objects, search and filters |
| C56, C57 | Print, PrintProofs, DotProofs on Cuds | PropPrint | pretty_print and Cuds2dot as traversals over any order; the printed lines and drawn statements against reachability |
| C58 | Sim on Wrapper | PropSim | simulation and file sessions with failing engines |
| C59 | Uri | PropUri | user information in connection URIs |
| C60 | Export on Cuds, Traverse, Buffers | PropExport | export and import against reachability and the source's triples |
| C61 | LoadClass on Wrapper | PropLoadClass | loading by class, with the refinement of C30 |
| C62 | WrapperFind, WrapperFirst, FullGraph on Wrapper, Yml | PropFullGraph | search interleaved with loading; depth-first invariant on top of the refinement of C30 |
| C63 | Remote on Wrapper, Buffers | PropRemote | client and server as a pair; invariant: the client is a wrapper session whose backend is the server's content, the server's session is one up to type triples of dead objects; refinement of the in-memory session as in C30 |
| C64 | Shared on Wrapper | PropShared | sessions numbered by nat share the stored triples; every session of a reachable state is one of Wrapper's histories (the others' commits are external changes); frame lemma for the calls a commit makes; C27_read_is_fresh for reading |
| C65 | Camel on Names, Validator | CamelProofs, PropCamel | the converted dictionary as a fold of assignments; injectivity of the conversion (C44) gives no collisions; the fields compared through the readers of Yml; recursion depth monotone; inductive specification of "below a relationship" |
| C66 | WrapDev on Cuds | PropWrapDev | the set of relationships as any permutation; induction over it with the session invariant and the exact effect of remove() |
| C67 | SqlText, SqlUtil; specification SqlRead | PropSqlText | SqlText renders the statements of sqlite_session.py character by character; SqlRead.v (specification) lexes, parses and runs SQL texts; read(text) is proved to be the intended statement for all clean names by composing lexing lemmas, the effect by combining with the parameter bindings of C36. |
| C68 | SqlStore, SqlText, Datatype | PropSqlStore | affinity rules of SQLite as specification, column types of sqlite_session.py and conversions of datatypes.py as model; case analysis over datatypes, numeric texts as a regular language. |
| C69 | SqlTriple.v: _construct_query, _get_conditions, _construct_remove_condition, _add, the index lookups and _initialize as query objects and texts; PropSqlTriple.v: specification in terms of joined rows (stored_rel, stored_type, stored_data), by C67 and case analysis over patterns, vectors by the expansion of C36. |
| C70 | OntoDot.v: Ontology2Dot over an abstract ontology, with fuel; PropOntoDot.v: what one call adds to a drawing (record grew) by induction on fuel; termination by the number of entities not visited. |
| C71 | SqlSession.v: the session as a sender of the statement texts of C67/C69, with the cached namespaces; PropSqlSession.v: an invariant on all tables (unique keys, references, namespaces), preserved by every operation; simulation by a set of triples, induction on histories. |
| C72 | Registry.v: the access functions of the registry and of a namespace over the lookup of Namespace.v, modules as dictionaries, the cached default relationship; PropRegistry.v: induction on the bindings and on the graph. |
| C73 | Neighbors.v: the two dictionary classes over the set of triples, with argument checks and the notifications as events; PropNeighbors.v: set reasoning, induction on the assigned dictionary. |
| C74 | Equal.v: oclasses, oclass, __eq__, __hash__ over handles of several sessions, any enumeration order; PropEqual.v: types are kept by every operation on other objects (induction over the history), copies by C20. |
| C75 | Wrapper.v with an unrelated backend graph: one refresh computed exactly (triples, registry, expired set, buffers) for known and for deleted objects; composition with the next read of a neighbour; PropRefresh.v; lists of objects by induction over the loop (RefreshMany.v, PropRefreshMany.v). |
| C76 | Proto.v receive_files/_decode for arbitrary frames: names written are entries of the directory, hash record, self-delimitation (by induction on the number of files); PropReceive.v. |
| C77 | Dummy.v: engine + lazily loaded view of the persons; stable sort computed by rank; invariant over histories of reads and runs; PropDummy.v. |
| C78 | Construct.v: Python argument binding as association lists; the choice of arguments in _init_session; PropConstruct.v by case analysis and list lemmas. |

## Trusted base

* Coq's kernel (8.16.1), and `vm_compute` where an example or a refutation is
  checked by evaluation (it is part of the kernel).
* `Print Assumptions` reports **"Closed under the global context"** for every
  theorem listed in `MANIFEST.json`: no axiom is used, neither of the standard
  library nor of this development.  Loading std++ brings `Coq.ssr.ssrunder` into
  scope, whose module type fields (`Under_rel` …) `vcheck` lists as library axioms;
  no theorem depends on them.
* std++ (sets, finite maps, lists) is used as a library of definitions and proven
  lemmas.
* The reading of the Python code recorded in the comments of each definition: the
  code is not run here, so the correspondence of model and code is by inspection.
* Assumptions about the outside world appear as hypotheses or parameters.  The
  ones that matter most:
  - rdflib: a graph is a set of triples; `triples(pattern)` enumerates the matching
    ones in any order; `Graph.bind` as modelled in Namespace.v.
  - sqlite: a select is the filtered cross product, `ROLLBACK` restores the tables.
  - websockets deliver messages whole and in order; asyncio runs a request handler
    without suspension (there is no `await` inside the session call).
  - hash functions are collision free on the files at hand (C06).
  - json and rdflib-jsonld read back what they write (hypothesis `JsonLd`, C07).
  - OntologyClass values convert as in Datatype.v; elsewhere conversion is a
    parameter that may raise.

## Not modelled

The command lines (`pico.py` and the `run_from_terminal` functions), the import hook of
`namespaces.py`, logging and warnings, the text of the drawings of `cuds2dot.py` and
`ontology2dot.py` (the nodes and edges are modelled), the dataspace wrapper,
authentication beyond the presence of a hook, threads, memory and recursion limits, the text of RDF/XML files, `numpy`
element conversion (a parameter), number formatting of floats.

## Findings about the code

Every item is a theorem named `…refuted…` unless marked "(reading)".

* **Transport**: an empty command is sent but not decodable; an exception while a
  message is sent leaves a partial message on the wire; a failed re-initialisation
  keeps a closed session; the second download of an unchanged file leaves the
  server's path in the client's object; `{"UUID": …}`, `{"ENTITY": …}` dictionaries
  and lists beginning with an `@id` dictionary are misread; entity names with a dot
  cannot be sent; int/bool/None keys become strings; `_force` of `deserialize` is
  not used (reading).
* **CUDS**: relationships not below `cuba.relationship` (OWL ontologies) stay behind
  on deletion; adding the handle of a deleted object makes a one-way link;
  constructing a uid twice gives two values; `prune(rel=…)` leaves dangling links;
  `max_depth` search misses objects first met on a longer path.
* **Other sessions**: with two lost parents only the first link back is restored;
  a link from the copied object to the target itself is not inverted; classes of
  linked objects are merged; an add that raises half-way leaves copies.
* **Wrapper sessions**: re-creating a deleted uid keeps old triples; loading an
  object deleted since the last commit resurrects it; the zero uid overwrites the
  root; removals from the root before the first commit are not written; a failure
  in the backend's own commit loses the buffers; re-creating an expired uid loses
  data; load_by_oclass overwrites pending changes, resurrects deleted objects and does
  not see added ones; `_notify_update` on a deleted object raises after the graph was changed (reading).
* **SQL**: only the first forbidden character is looked for in names; more than ten
  conditions share parameters; cached namespace indexes survive a rollback; two
  sessions give one namespace two indexes; untyped literals come back typed;
  numeric-looking strings change; a column name may look like a vector column;
  table names of custom datatypes clash with standard prefixes.
* **Simulation**: without a city, reading a person that moved raises IndexError, and an
  age below 0 or a negative number of steps is accepted (reading).
* **Migration**: fails with KeyError when already current; drops tables of the new
  schema when old ones exist too; stores labels in place of IRI suffixes.
* **Ontology**: `owl:Thing`/`topDataProperty` break the converse of
  sub/superclasses; created inverses collide with existing names; nested namespace
  IRIs resolve to the first bound one; names differing only in case get the wrong
  namespace; `A_1` is not found under its old name; the namespace pattern is
  unanchored; the nearest default is not the one used; a default in a subclass does
  not make an obligatory attribute optional; falsy defaults are overwritten.
* **YAML parser**: cyclic superclasses never end; a superclass of the own namespace in
  another spelling gives KeyError; a failing document leaves triples behind;
  `default_rel: false` counts as a default relationship; `INT:5` ends in an
  AssertionError (all `C50_…` examples).
* **OWL descriptions**: `requirements` is always refused; a wrong active relationship
  leaves the file's triples and the bindings behind; two descriptions of a namespace
  with different default relationships leave the choice to the enumeration order.
* **Installation**: a failing uninstall/overwrite clears the registry in memory, or
  the directory when an identifier has capitals; requirements are compared case
  sensitively; OWL packages cannot declare requirements; a stored package keeps the
  `format` of the original file although the file is stored as XML.
* **Schema files**: only the object of each class visited last is checked; cyclic
  data never ends.
* **Output**: pretty_print raises TypeError when an object without name stands next to a
  named one of its class; node names of Cuds2dot keep 44 of the 128 bits of a uid, so two
  objects may share a node; a link is drawn once per direction that was visited.
* **Simulation and file sessions**: when the first run fails its changes are not sent
  again; a failing update loses the pending changes; an object deleted and created
  again is sent as an update; after a failing save the file stays open.
* **URIs**: an `@` in the password cuts the host; an empty user is dropped with its
  password.
* **Export**: links to objects that were not exported dangle; importing over existing
  objects leaves one-way links at their neighbours.
* **RDF export**: stored objects that are neither loaded nor reachable from the root are
  missing.
