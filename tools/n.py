exec(open('/tmp/w/addnotes.py').read()); exec(open('/tmp/w/addprops.py').read())
import json
st=[json.loads(l) for l in open('/verif/properties.jsonl')]
s43=[p for p in st if p['id']=='C43'][0]['statement']
add_props([],upd={'C43':{'statement':s43.replace("storing the namespaces","binding a namespace keeps all earlier bindings and always leaves its IRI bound, to the wanted prefix if that was free; storing the namespaces")}})
