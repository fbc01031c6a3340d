exec(open('/tmp/w/addnotes.py').read()); exec(open('/tmp/w/addprops.py').read())
add_props([
dict(id="C65",title="Converting an old ontology file to CamelCase",
 statement="yaml2camelcase turns a file with upper-case entity names into an equivalent one: the namespace and the requirements are written in lower case, everything else outside the ontology stays; the entities are the same, in the same order, no two under one name, and every entity is read as before - the same superclasses, inverse, datatype, description, default relationship and attributes with the same defaults - except that the references are converted. A reference to an entity of the file becomes a reference to the converted entity. The new name begins with a small letter exactly when the entity is below a relationship or an attribute. Names are the strings of capitals, digits and underscores. Restriction: every underscore inside a name is followed by a capital; otherwise two entities (CITY__WALL, CITY_WALL) can become one and a definition is lost.",
 quantifier="all ontology files with distinct well-formed names and all answers of the user about names of other ontologies, whenever the conversion succeeds",
 why_tests_cant="the new names depend on the whole chain of superclasses, and whether references still point to their entities has to hold for every file",
 anchors=["osp/core/tools/yaml2camelcase.py: Yaml2CamelCaseConverter.convert, convert_nested_doc, get_first_letter_caps, toCamelCase"]),
])
save({"C65":("proved","C65_convert, C65_references, C65_capital, C65_what_is_a_name; the restriction as C65_collision_refuted. Conversions that raise (undefined superclass, cycle) are outside: nothing is stored then.")})
d=open('/verif/DESIGN.md').read()
if "| C65 |" not in d:
    d=d.replace("\n## Trusted base","| C65 | Camel on Names, Validator | CamelProofs, PropCamel | the converted dictionary as a fold of assignments; injectivity of the conversion (C44) gives no collisions; the fields compared through the readers of Yml; recursion depth monotone; inductive specification of \"below a relationship\" |\n\n## Trusted base",1)
    d=d.replace("|\n\n| C65","|\n| C65")
open('/verif/DESIGN.md','w').write(d)
