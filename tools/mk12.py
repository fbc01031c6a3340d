import json
L=[]
def a(d,o,n,c): L.append(dict(file='SqlTriple',**{'def':d},old=o,new=n,claim=c,targets='theories/PropSqlTriple.vo',iters=14,timeout=1200))
a('object_condition','let l := map (fun \'(c, w) => CEq table_name c w edt) (combine ocols ws) in','let l := map (fun \'(c, w) => CEq table_name c w edt) (combine ocols (rev ws)) in','C69: the elements of a vector compared in the wrong order')
a('object_condition','let l := map (fun \'(c, w) => CEq table_name c w edt) (combine ocols ws) in','let l := map (fun \'(c, w) => CEq table_name c w edt) (combine (firstn 1 ocols) ws) in','C69: only the first element of a vector compared')
a('object_condition','if is_vector (Some dt) then Ok (CAnd (as_set l))\n        else match l with x :: _ => Ok x | [] => Err TypeError end','match l with x :: _ => Ok x | [] => Err TypeError end','C69: vectors not expanded in conditions')
a('get_conditions','[CEq (lit "ts") (lit "uid") uid (Some (lit "UUID"))]','[CEq (lit "to") (lit "uid") uid (Some (lit "UUID"))]','C69: subject compared with the object')
a('get_conditions','[CEq (lit "ts") (lit "uid") uid (Some (lit "UUID"))]','[]','C69: subject of the pattern ignored')
a('get_conditions','[CEq (lit "tp") (lit "ns_idx") ns_idx (Some XSD_integer);\n                        CEq (lit "tp") (lit "name") name (Some XSD_string)]','[CEq (lit "tp") (lit "name") name (Some XSD_string)]','C69: predicates of other namespaces with the same name match')
a('get_conditions','[CEq (lit "tp") (lit "ns_idx") ns_idx (Some XSD_integer);\n                        CEq (lit "tp") (lit "name") name (Some XSD_string)]','[CEq (lit "tp") (lit "ns_idx") ns_idx (Some XSD_integer)]','C69: all predicates of the namespace match')
a('get_conditions','if str_eqb table_name TYPES_TABLE then []\n                  else','','C69: predicate condition on the table of types (no such alias): SQL error') 
a('get_conditions','[CEq (lit "to") (lit "uid") uid (Some (lit "UUID"))])','[CEq (lit "ts") (lit "uid") uid (Some (lit "UUID"))])','C69: object compared with the subject')
a('get_conditions','Ok (cs ++ cp ++ [CEq (lit "to") (lit "ns_idx") ns_idx (Some XSD_integer);\n                               CEq (lit "to") (lit "name") name (Some XSD_string)])','Ok (cs ++ cp ++ [CEq (lit "to") (lit "ns_idx") name (Some XSD_integer);\n                               CEq (lit "to") (lit "name") ns_idx (Some XSD_string)])','C69: namespace and name swapped in the condition on the type')
a('get_conditions','| None => Ok (cs ++ cp)','| None => Ok cs','C69: predicate ignored if the object is open')
a('get_conditions','rmap (fun c => cs ++ cp ++ [c]) (object_condition table_name dt ws)','rmap (fun c => let _ := c in cs ++ cp) (object_condition table_name dt ws)','C69: value ignored')
a('construct_query','(Some (CJoin table_name (lit "s") (lit "ts") (lit "cuds_idx")))','None','C69: no join with the subjects: every subject is returned for every row')
a('construct_query','(Some (CJoin table_name (lit "s") (lit "ts") (lit "cuds_idx")))','(Some (CJoin table_name (lit "s") (lit "ts") (lit "uid")))','C69: subject joined by uid instead of index')
a('construct_query','(CJoin table_name (lit "p") (lit "tp") (lit "entity_idx"))','(CJoin table_name (lit "s") (lit "tp") (lit "entity_idx"))','C69: predicate joined by the column of the subject')
a('construct_query','(CJoin table_name (lit "p") (lit "tp") (lit "entity_idx"))','(CJoin table_name (lit "p") (lit "tp") (lit "ns_idx"))','C69: predicate joined by the namespace index')
a('construct_query','(CJoin table_name (lit "o") (lit "to") (lit "entity_idx"))','(CJoin table_name (lit "s") (lit "to") (lit "entity_idx"))','C69: type joined by the column of the subject')
a('construct_query','(CJoin table_name (lit "o") (lit "to") (lit "cuds_idx"))','(CJoin table_name (lit "s") (lit "to") (lit "cuds_idx"))','C69: object joined by the column of the subject')
a('construct_query','let entity := [lit "ns_idx"; lit "name"] in','let entity := [lit "name"; lit "ns_idx"] in','C69: namespace and name swapped in the result')
a('construct_query','(q_join q CUDS_TABLE [lit "uid"] (Some (lit "to")))','(q_join q CUDS_TABLE [lit "cuds_idx"] (Some (lit "to")))','C69: index of the object returned instead of its uid')
a('construct_query','(if startswith DATA_TABLE_PREFIX table_name\n                   then rmap fst (get_expanded_cols (lit "o") (Some dt)) else Ok [])','(if startswith DATA_TABLE_PREFIX table_name\n                   then Ok [lit "o"] else Ok [])','C69: columns of vectors not expanded')
a('construct_query','Ok (q_where as_set q (Some (CAnd (as_set l))))','let _ := l in Ok q','C69: the pattern is ignored')
a('construct_query','(q_join q ENTITIES_TABLE entity (Some (lit "tp")))','(q_join q ENTITIES_TABLE entity (Some (lit "ts")))','C69: alias used twice')
a('construct_remove_condition','[CEq table (lit "s") s (Some XSD_integer)]','[CEq table (lit "o") s (Some XSD_integer)]','C69: deletes the incoming relationships of the subject')
a('construct_remove_condition','[CEq table (lit "s") s (Some XSD_integer)]','[]','C69: deletes the triples of all subjects')
a('construct_remove_condition','[CEq table (lit "p") p (Some XSD_integer)]','[]','C69: deletes the triples of all predicates')
a('construct_remove_condition','(cs ++ [CEq table (lit "o") o (Some XSD_integer)])','cs','C69: deletes all types of the subject')
a('construct_remove_condition','| None => Ok (CAnd (as_set (cs ++ cp)))','| None => Ok (CAnd (as_set cs))','C69: predicate ignored if the object is open')
a('construct_remove_condition','CAnd (as_set (cs ++ cp ++ [c]))','CAnd (as_set (cs ++ [c]))','C69: predicate ignored if the object is given')
a('construct_remove_condition','CAnd (as_set (cs ++ cp ++ [c]))','CAnd (as_set (cp ++ [c]))','C69: subject ignored if the object is given')
a('add_columns','Ok [lit "s"; lit "o"]','Ok [lit "o"; lit "s"]','C69: subject and type swapped')
a('add_columns','lit "s" :: lit "p" :: fst x','lit "p" :: lit "s" :: fst x','C69: subject and predicate swapped')
a('add_columns','lit "s" :: lit "p" :: fst x','lit "s" :: lit "p" :: rev (fst x)','C69: vector stored in reverse order')
a('cuds_lookup','(q_new CUDS_TABLE [lit "cuds_idx"; lit "uid"] None)','(q_new CUDS_TABLE [lit "uid"; lit "cuds_idx"] None)','C69: uid taken for the index')
a('cuds_lookup','(Some (CEq CUDS_TABLE (lit "uid") uid (Some (lit "UUID"))))','(let _ := uid in None)','C69: index of the first object for all uids')
a('entity_lookup','[CEq ENTITIES_TABLE (lit "ns_idx") ns_idx (Some XSD_integer);\n                           CEq ENTITIES_TABLE (lit "name") name (Some XSD_string)]','[CEq ENTITIES_TABLE (lit "name") name (Some XSD_string)]','C69: entities with the same name in other namespaces found')
a('entity_lookup','[lit "entity_idx"; lit "ns_idx"; lit "name"] None','[lit "ns_idx"; lit "entity_idx"; lit "name"] None','C69: namespace index taken for the entity index')
a('namespaces_query','[lit "ns_idx"; lit "namespace"] None) None','[lit "namespace"; lit "ns_idx"] None) None','C69: index and namespace swapped')
a('sc_cuds','Schema CUDS_TABLE [lit "cuds_idx"; lit "uid"]','Schema CUDS_TABLE [lit "cuds_idx"]','C69: table of objects without the column uid')
a('sc_entities','[lit "entity_idx"] [(lit "ns_idx", (NAMESPACES_TABLE','[lit "entity_id"] [(lit "ns_idx", (NAMESPACES_TABLE','C69: primary key on an unknown column: table cannot be created')
a('sc_types','[[lit "s"]; [lit "o"]]','[[lit "s"]; [lit "p"]]','C69: index on an unknown column: database cannot be initialised')
a('sc_relations','Schema RELATIONSHIP_TABLE','Schema TYPES_TABLE','C69: table of relationships not created')
a('sc_data','(dict_of ((lit "o", Some dt) :: integers [lit "s"; lit "p"]))','(dict_of ((lit "o", Some XSD_integer) :: integers [lit "s"; lit "p"])) ','C69: data tables for vectors without the columns of the elements')
a('create_texts','db_create (sc_table sc) cols dts','let _ := cols in db_create (sc_table sc) (sc_columns sc) dts','C69: columns of vectors not created')
a('initialize_schemas','[sc_namespaces; sc_cuds; sc_entities; sc_types; sc_relations] ++ ds','[sc_namespaces; sc_cuds; sc_entities; sc_relations] ++ ds','C69: table of types not created')
a('initialize_texts','rmap (@concat str) (mapM create_texts scs)','rmap (@concat str) (mapM create_texts (tl scs))','C69: table of namespaces not created')
a('RELATIONSHIP_TABLE','Definition RELATIONSHIP_TABLE : str := lit "OSP_V1_RELATIONS".','Definition RELATIONSHIP_TABLE : str := lit "OSP_V1_RELATIONSHIPS".','C69: another table name')
json.dump(L,open('/tmp/w/muts12.json','w'),indent=1)
for m in L:
    s=open('/verif/rocq/theories/%s.v'%m['file']).read()
    if m['old'] not in s: print('NOTFOUND',m['def'],m['old'])
