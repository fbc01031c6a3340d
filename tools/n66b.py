exec(open('/tmp/w/addnotes.py').read()); exec(open('/tmp/w/addprops.py').read())
L=[json.loads(l) for l in open('/verif/properties.jsonl')]
st=[d for d in L if d['id']=='C66'][0]['statement']
st=st.replace("change_oclass on an object without neighbours gives it exactly the new class and attributes and changes no other object; arguments that do not fit the class change nothing.","change_oclass gives an object exactly the new class and attributes and changes no other object; if the object has no neighbours, arguments that do not fit the class change nothing.")
st=st.replace("change_oclass on an object with neighbours leaves one-sided links;","change_oclass on an object with neighbours removes the object's side of the links only (the neighbours keep theirs), and when the arguments do not fit it raises with the new class added to the old ones;")
add_props([],upd={'C66':{'statement':st}})
n=NOTES['C66']; save({'C66':(n[0],n[1]+" C66_change_oclass_linked and C66_change_oclass_linked_error say exactly what happens to an object with neighbours.")})
