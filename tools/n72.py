exec(open('/tmp/w/addnotes.py').read()); exec(open('/tmp/w/addprops.py').read())
add_props([dict(id="C72",title="The namespace registry is a case-insensitive mapping",
statement="After the registry has been updated, a name is in it exactly if a prefix with that name, up to case, is bound; `in`, [], attribute access and get(name, fallback) always agree, raising KeyError, AttributeError or giving the fallback; the namespace found has the bound IRI (unless prefixes differ in case only); iteration yields every namespace with a non-empty name exactly once; updating a module sets each namespace under its upper-case and lower-case name and touches nothing else; two namespaces are equal exactly if their names agree up to case, and then have the same hash. `name in namespace` is true for every name that can be looked up, but for other names it raises what the lookup raises and is never false. The default relationship of a namespace is one that the ontology states, none exactly if none is stated, the only one if there is only one, and asking again gives the same; but if it is not declared the first question raises KeyError and the next one on the same object answers None.",
quantifier="all registries (bindings and graphs), all names, all modules, all orders of the graph",
why_tests_cant="depends on the whole set of bindings and on case clashes among them; the tests look at a few fixed namespaces",
anchors=["osp/core/ontology/namespace_registry.py: NamespaceRegistry.__iter__, __getattr__, __getitem__, __contains__, get, update_namespaces","osp/core/ontology/namespace.py: OntologyNamespace.__eq__, __hash__, __contains__, __getattr__, get_default_rel"])])
save({"C72":("proved","Registry.v on top of Namespace.v. C72_contains, C72_access, C72_item, C72_iteration, C72_module, C72_equality: the registry; C72_in_namespace, C72_in_namespace_declared, C72_in_namespace_refuted: `in` on a namespace (never false); C72_default_rel, C72_default_rel_again, C72_default_rel_retry_refuted: the default relationship with its cache. C72_example_no_clash, C72_example: a concrete registry. Case conversion is that of ASCII letters. The two surprises (`in` raises; None after a KeyError) are part of the statement.")})
p='/verif/DESIGN.md';s=open(p).read()
row="| C72 | Registry.v: the access functions of the registry and of a namespace over the lookup of Namespace.v, modules as dictionaries, the cached default relationship; PropRegistry.v: induction on the bindings and on the graph. |\n"
assert "| C72 |" not in s
i=s.index("\n## Trusted base")
s=s[:i].rstrip("\n")+"\n"+row+s[i:]
open(p,'w').write(s)
