import json
exec(open('/tmp/w/addnotes.py').read())
P='/verif/properties.jsonl'
L=[json.loads(l) for l in open(P)]
for d in L:
    if d['id']=='C73':
        d['statement']+=" The items are every key once with the classes stored for it. Comparing with an ordinary dictionary (of one relationship, or of all) changes nothing, is true only if the keys are the neighbours and the lists have exactly the stored classes, and is true then if no list has several classes (their order is arbitrary)."
    if d['id']=='C76':
        d['statement']+=" A request of another protocol version is refused with NotImplementedError."
    if d['id']=='C44' and 'datatypes' not in d['statement']:
        d['statement']+=" Every name of a string or vector datatype is in the cuba namespace, whatever its parameters; besides them only its named entities are."
open(P,'w').write(''.join(json.dumps(d,ensure_ascii=False)+'\n' for d in L))
M=json.load(open('/verif/MANIFEST.json'))
n={c['property']:c for c in M['claims']}
save({"C73":("proved",n["C73"]["note"].replace("; [items], [values] and [==] are not modelled."," . C73_items, C73_equal, C73_equal_all, C73_equal_example: items and == (for all relationships the reads made by comparing the values are not recorded).").replace(" . C73"," . C73").replace("does that) .","does that).")),
"C76":("proved",n["C76"]["note"]+" C76_other_version: the version check of the server (the client does not check it)."),
"C44":("proved",n["C44"]["note"]+"; C44_cuba_datatypes: membership in the cuba namespace")})
