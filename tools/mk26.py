import json
M=[]
def a(f,d,o,n,c): 
    s=open(f'/verif/rocq/theories/{f}.v').read()
    assert s.count(o)>=1,(f,o)
    M.append(dict(file=f,**{'def':d},old=o,new=n,claim=c))
V='Validator'
a(V,'format','(true, lit "namespace", PRe false name_re)','(true, lit "namespace", PRe true name_re)','the namespace is matched from the start only')
a(V,'format','(false, lit "default_rel", qualified_p);\n       (false, lit "author"','(true, lit "default_rel", qualified_p);\n       (false, lit "author"','default_rel is optional')
a(V,'entity_common','(true, lit "subclass_of", ces_p)','(false, lit "subclass_of", ces_p)','subclass_of is required')
a(V,'format','(true, lit "range", PName FClassExpr); (false, lit "cardinality"','(false, lit "range", PName FClassExpr); (false, lit "cardinality"','range is required')
a(V,'count_errors','| Err ValueError => rmap S (count_errors f l\')','| Err ValueError => count_errors f l\'','failing alternatives are counted')
a(V,'call_ok','(z =? 0)%Z || (z =? 1)%Z','(z =? 1)%Z','0 equals False')
a(V,'validate','match validate fuel (YS k) kp with Ok _ => validate fuel x vp | Err e => Err e end) kv','validate fuel x vp) kv','keys are checked')
a(V,'lookup','if str_eqb k k\' then Some v else lookup k l\'','if str_eqb k k\' then lookup k l\' else lookup k l\'','the value of the key')
a(V,'format','PDict (PRe true not_re) (PName FClassExpr)','PDict (PRe true not_re) ces_p','not takes one class expression')
T='Datatype'
a(T,'to_string','(maxsize <? Z.of_nat (List.length x))%Z','(maxsize <=? Z.of_nat (List.length x))%Z','a string of the maximal length is accepted')
a(T,'convert_from','| TVector _ _ => Ok','| TVector _ _ => Ok') if False else None
a(T,'convert_to','| Ok (TVector b sh) => to_vector (conv b) sh v','| Ok (TVector b sh) => to_vector (conv FLOAT) sh v','the element type of a vector') 
a(T,'to_vector','&& Nat.eqb (List.length (flatten w)) (size (map Z.to_nat shape))','','a wrong number of elements is refused')
a(T,'get_rdflib_datatype','Nat.eqb (List.length args) 2 then','Nat.leb (List.length args) 2 then','STRING takes one argument (equivalent: STRING alone is basic)')
a(T,'vector_iri','yml_name b ++ lit "-" ++ join_with (lit "-") (map decZ shape)','yml_name b ++ lit "-" ++ join_with (lit "-") (map decZ (rev shape))','the shape in order')
S='SqlUtil'
a(S,'get_data_table_name','Ok (p ++ lit "RDFS_" ++ after RDFS dt)','Ok (p ++ lit "RDF_" ++ after RDFS dt)','tables of different datatypes differ')
a(S,'forbidden_chars','39; 96; 92; 37]%N','39; 96; 92]%N','percent is refused')
a(S,'check_loop','| OAnd l => check_loop fuel\' c (rev l ++ rest)','| OAnd l => check_loop fuel\' c rest','conditions are checked')
a(S,'check_loop','check_loop fuel\' c (rev vs ++ rev ks ++ rest)','check_loop fuel\' c (rev ks ++ rest)','values of dictionaries are checked')
a(S,'expand_cols0','expand_cols0 orig (upd dts1 c dt) cols\' with','expand_cols0 orig dts1 cols\' with','the datatype of the vector is kept')
a(S,'contract_row','| [] => Ok acc\n                 | _ => rmap','| [] => Ok acc\n                 | [_] => Ok (acc ++ temp)\n                 | _ => rmap','vectors of one element are vectors')
a(S,'contract_row','contract_row q\' row\' acc\' [v] dt','contract_row q\' row\' acc [v] dt','the previous vector is kept')
a(S,'expand_condition','combine ecols (items v)','combine ecols (rev (items v))','elements are compared in order')
a(S,'get_condition_pattern','| CAnd [] => ([PTrue], [])','| CAnd [] => ([], [])','an empty conjunction is true')
F='Files'
a(F,'check_hash','then (true, hs) else (false, <[name := d]> hs)','then (true, hs) else (false, hs)','a changed hash is stored')
a(F,'filter_files','| None => filter_files disk fs hs','| None => ([], hs)','files after a missing one are sent')
a(F,'filter_files','(if known then rest else (f, content) :: rest, hs2)','(if known then rest else (f, content) :: rest, hs1)','hashes of all files are stored')
O='Onto'
a(O,'known','bool_decide ((t, p_type, owl_DatatypeProperty) ∈ g)','bool_decide ((t, p_type, owl_DataProperty) ∈ g)','attributes are entities')
a(O,'special_cases','(Some owl_Nothing, p_subClassOf, None)) then (None, p_type, Some owl_Class)','(Some owl_Nothing, p_subClassOf, None)) then p','owl:Nothing is below every class')
a(O,'hull_loop','hull_loop pick g pred inverse bl fuel v f with','hull_loop pick g pred inverse bl fuel visited f with','the visited set is kept')
a(O,'dc_visit','else if is_bnode o then dc_visit g bl os visited frontier\n','else if is_bnode o || bool_decide (o ∈ bl) then dc_visit g bl os visited frontier\n','the search goes on through blacklisted entities')
json.dump(M,open('muts26.json','w')); print(len(M))
