import json
T=dict(targets="theories/PropCamel.vo",iters=10,timeout=900)
M=[]
def m(d,old,new,claim): M.append(dict(file="Camel",**{"def":d},old=old,new=new,claim=claim,**T))
m("old_name_re","Star (Alts [upper_letter; digit; chr 95])","Star (Alts [upper_letter; chr 95])","C65: digits are allowed in names")
m("old_name_re","Seq (Alt (chr 95) upper_letter)","Seq (Alts [chr 95; upper_letter; digit])","C65: names do not begin with a digit")
m("old_qualified_re","Seq old_name_re (Seq (chr 46) old_name_re)","Seq old_name_re (Seq (Chr (fun _ => true)) old_name_re)","C65: a reference has a dot (unescaped dot in the pattern)")
m("qualified_entity_name","re_match true old_qualified_re s","re_match false old_qualified_re s","C65: whole strings are matched")
m("conv_value",'then Ok (YS (SStr (lit "cuba.Entity")))','then Ok (YS (SStr (lit "cuba.entity")))',"C65: CUBA.ENTITY becomes cuba.Entity")
m("conv_value","else if pat s then rmap (fun w => YS (SStr w)) (cam s)","else if pat s then Ok e","C65: references are converted")
m("conv_value","    | _ => rec e\n","    | _ => Ok e\n","C65: nested lists are converted")
m("conv","match conv_value pat (conv qualified_entity_name) e with\n              | Err x => Err x\n              | Ok e' => rmap (cons e') (go l')","match conv_value pat (conv qualified_entity_name) e with\n              | Err x => Err x\n              | Ok e' => go l'","C65: elements of lists are kept")
m("conv","| Ok v' => go (dset (SStr w) v' acc) l'","| Ok v' => go (dset (SStr w) v acc) l'","C65: the definitions under renamed keys are converted")
m("conv","| Ok v' => go (dset (SStr w) v' acc) l'","| Ok v' => go (dset (SStr s) v' (dset (SStr w) v' acc)) l'","C65: the old key is dropped")
m("conv","                  else match conv_value pat (conv qualified_entity_name) v with\n                       | Err x => Err x\n                       | Ok v' => go (dset k v' acc) l'","                  else match conv_value pat (conv qualified_entity_name) v with\n                       | Err x => Err x\n                       | Ok v' => go acc l'","C65: other fields are kept")
m("dset","then (k', v) :: l' else","then (k', v') :: l' else","C65: the converted ontology replaces the old one")
m("convert","let ns := lower n in","let ns := n in","C65: the namespace is written in lower case")
m("convert","Some (YS (SStr (lower s))) | _ => None end) l","Some (YS (SStr s)) | _ => None end) l","C65: requirements in lower case")
m("convert","match conv (to_camel ns od ask fuel) entity_name onto with","match conv (to_camel ns od ask fuel) qualified_entity_name onto with","C65: the names of the entities are converted")
m("convert","Ok (dset (SStr (lit \"ontology\")) onto' doc2)","Ok (dset (SStr (lit \"ontology\")) onto' doc)","C65: namespace and requirements are converted")
N=lambda d,old,new,claim: M.append(dict(file="Names",**{"def":d},old=old,new=new,claim=claim,**T))
N("first_letter_caps","then Ok (Some true)\n               else","then Ok (Some false)\n               else","C65: entities with class expressions are classes")
N("first_letter_caps","| Ok true => Ok (Some false)\n                 | Ok false","| Ok true => Ok (Some true)\n                 | Ok false","C65: below a relationship: small letter")
N("first_letter_caps","match any_is false rs with","match any_is true rs with","C65: one superclass that is a relationship suffices")
N("first_letter_caps","if str_eqb (lower nsw) ns then","if str_eqb nsw ns then","C65: references to the own namespace are resolved in the file")
N("first_letter_caps","else Ok (Some (ask word))","else Ok (Some (negb (ask word)))","C65: the user's answer decides")
N("to_camel","rmap (fun r => lower nsw ++ [dot] ++ r)","rmap (fun r => nsw ++ [dot] ++ r)","C65: references in lower-case namespaces")
N("camel_local","(if caps then up1 c else low1 c)","(if caps then low1 c else up1 c)","C65: classes begin with a capital")
N("cuba_lower_names",'"CUBA.PASSIVE_RELATIONSHIP"; "CUBA.ATTRIBUTE"; "CUBA.PATH"','"CUBA.ATTRIBUTE"; "CUBA.PATH"',"C65: passive relationships are relationships (changes the specification as well)")
json.dump(M,open('/tmp/w/muts9.json','w'))
src={f:open(f'/verif/rocq/theories/{f}.v').read() for f in('Camel','Names')}
for x in M:
    if src[x['file']].count(x['old'])<1: print('NOT FOUND',x['def'],x['old'])
print(len(M))
