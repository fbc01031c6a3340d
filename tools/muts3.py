import json
M=[]
def m(file,d,old,new,claim,targets,**k):
    s=open(f'/verif/rocq/theories/{file}.v').read()
    if s.count(old)<1: print('MISSING',file,d,old)
    M.append(dict(file=file,**{'def':d},old=old,new=new,claim=claim,targets=f'theories/{targets}.vo',iters=14,**k))
T='PropOClass'
m('OClass','merge1','(i_obl x || i_obl v)','(i_obl v)','C48: an attribute obligatory in a superclass stays obligatory',T)
m('OClass','merge1','(py_or (i_default x) (i_default v))','(i_default v)','C48: inherited defaults are kept',T)
m('OClass','merge1','default (Info None false None) (dget d a)','Info None false None','C48: attributes of all superclasses are merged',T)
m('OClass','find_default','if decide ((b, p_default_attribute, a) ∈ g) then gvalue b p_default_value','if decide ((b, p_default_attribute, a) ∈ g) then gvalue b p_default_attribute','C48: the default value is returned',T)
m('OClass','find_default','if decide ((b, p_default_attribute, a) ∈ g) then gvalue b p_default_value','if decide (True) then gvalue b p_default_value','C48: the default of another attribute is not used',T)
m('OClass','case1_step','(Info (get_default a c) false None)','(Info (get_default a c) true None)','C48: attributes by domain are optional',T)
m('OClass','case1_step','if negb (isDP a) || is_bnode a','if is_bnode a','C48: only datatype properties are attributes',T)
m('OClass','case2_step','(bool_decide (dflt = None) && obl)','obl','C48: attributes with a default are optional',T)
m('OClass','get_attributes','(enum (Some c, p_subClassOf, None))','[]','C48: restrictions give attributes',T)
m('OClass','merge_all','| Ok own => merge_all (foldl merge1 d own) cs\'','| Ok own => Ok (foldl merge1 d own)','C48: attributes of all superclasses',T)
m('OClass','take_values','| Some v => next [(a, Given v)] (delete (argname a) kw)','| Some v => next [(a, Given v)] kw','C49: used arguments are not reported as unexpected',T)
m('OClass','take_values','if negb force && i_obl i then Err TypeError','if i_obl i then Err TypeError','C49: _force allows missing arguments',T)
m('OClass','take_values','if negb force && i_obl i then Err TypeError','if false then Err TypeError','C49: missing obligatory arguments are refused',T)
m('OClass','take_values','| Some t => next [(a, Dflt t)] kw','| Some t => next [] kw','C49: defaults are used',T)
m('OClass','attributes_values','if negb force && bool_decide (rest <> ∅) then Err TypeError else Ok r','Ok r','C49: unexpected arguments are refused',T)
m('OClass','by_argname','else if decide (lower (argname a) = n) then Some a','else if decide (lower (argname a) = n) then None','C49: lower case names',T)
m('OClass','call_class','else if isN then Err TypeError','else if false then Err TypeError','C49: Nothing has no individuals',T)
m('OClass','call_class','if isW && negb session then Err TypeError','if isW && session then Err TypeError','C49: wrappers need a session',T)
m('OClass','ranges','filter (fun o => o <> rdfs_Literal)','filter (fun o => o = o)','C48: Literal is no datatype',T)
m('OClass','datatype','| _ => Err RuntimeError','| d :: _ => Ok (Some d)','C48: two datatypes are an error',T)
m('OClass','add_attribute','(b2, p_default_value, v)','(b2, p_default_value, a)','C48: the default of the YAML file',T)
m('OClass','add_attribute','(b1, p_type, owl_Restriction); ','','C48: attributes of the YAML file',T)
T='PropSql'
m('Sql','get_ns_idx','i := fresh (map fst (t_ns db)) in\n        let s\' :=','i := 1 in\n        let s\' :=','C32: different namespaces get different indexes',T)
m('Sql','get_ns_idx','find_idx (rev (s_cache s)) n','head (map fst (s_cache s))','C32: the index of the namespace is used',T)
m('Sql','get_ns','| None => let s\' := load_ns s in','| None => let s\' := s in','C32: indexes of another session are loaded',T)
m('Sql','get_cuds_idx','match find_idx (t_cuds db) u with\n    | Some i => (Ok i, s)\n    | None => let i := fresh (map fst (t_cuds db))','match find_idx (t_cuds db) u with\n    | Some i => (Ok i, s)\n    | None => let i := 1','C32: objects get different indexes',T)
m('Sql','get_cuds_idx','(t_cuds db ++ [(i, u)])','(t_cuds db)','C32: a new object is recorded',T)
m('Sql','get_entity_idx','(t_ents db ++ [(i, x)])','[(i, x)]','C32: entities of earlier triples are kept',T)
m('Sql','insert_types','if decide (r ∈ l) then l else l ++ [r]','[r]','C32: types of other objects are kept',T)
m('Sql','insert_rels','(Ok (), upd_rels (fun l => if decide (r ∈ l) then l else l ++ [r]) s)','(Ok (), upd_rels (fun l => l ++ [r]) s)','(harmless for sets of triples) duplicates',T)
m('Sql','add1','get_cuds_idx u\') (fun oi => insert_rels (si, pi, oi))','get_cuds_idx u\') (fun oi => insert_rels (oi, pi, si))','C32: direction of relationships',T)
m('Sql','upd_data','if decide (fst x = d) then (fst x, f (snd x)) else x','(fst x, f (snd x))','C32: only the table of the datatype',T)
m('Sql','determine_table','Some (PAttr d) => Ok (TData (default xsd_string d))','Some (PAttr d) => Ok (TData xsd_string)','C32: queries by attribute',T)
m('Sql','determine_table','if decide (p = rdf_type) then Ok TTypes','if decide (p = rdf_type) then Ok TRels','C32: queries for types',T)
m('Sql','get_conditions','| Some (NCuds u), TRels => ret (Cond s cp (Some u) None None)','| Some (NCuds u), TRels => ret (Cond s cp None None None)','C32: queries by object',T)
m('Sql','get_conditions','| Some e, _ => mbind\' (split_ns e) (fun x => ret (Some x))','| Some e, _ => ret None','C32: queries by predicate',T)
m('Sql','select_types','bool_decide (s = ci) && bool_decide (o = ei) && holds_opt (c_s c) u','bool_decide (s = ci) && holds_opt (c_s c) u','C32: join with entities',T)
m('Sql','select_rels','bool_decide (o = cj) &&','true &&','C32: join with objects',T)
m('Sql','select_data','holds_opt (c_ov c) o\n','true\n','C32: queries by value',T)
m('Sql','all_tables','TRels :: TTypes ::','TRels ::','C32: types are found for a subject',T)
m('Sql','load_triples_for_iri','(filter (fun t => is_rels t = false) (all_tables s))','[TTypes]','C32: attributes are loaded',T)
m('Sql','load_triples_for_iri','(_, _, NCuds o) => triples (Some o, Some rdf_type, None)','(o, _, NCuds _) => triples (Some o, Some rdf_type, None)','C32: types of neighbours are loaded',T)
m('Sql','remove_from','holds_opt cs (fst r) && holds_opt co (snd r)','holds_opt cs (fst r)','C32: only the matching type is removed',T)
m('Sql','remove_from','bool_decide (snd r = co)','true','C32: only the matching relationship is removed',T)
m('Sql','remove_from','bool_decide (snd r = w)','true','C32: only the matching value is removed',T)
m('Sql','remove','(order (all_tables s))','[TRels; TTypes]','C32: removing an object removes its attributes',T)
m('Sql','initialize','t_data db ++ map','map','C32: existing data survives the start of a session',T)
m('Sql','rollback','Sess before (s_cache s)','s','C32: rollback restores the database',T)
T='PropMigrate'
m('Migrate','detect','if bool_decide (TMaster ∈ tables) then Ok 0','if bool_decide (TMaster ∈ tables) then Ok 1','C37: old databases are recognised',T)
m('Migrate','detect','else Err RuntimeError','else Ok 1','C37: unknown tables are refused',T)
m('Migrate','check_supported','if bool_decide (v ∈ [1])','if bool_decide (v ∈ [0;1])','C37: sessions refuse old databases',T)
m('Migrate','mig_cuds','(m_ns m) (m_ents m) (m_cuds m ++ [(i, u)])','(m_ns m) (m_ents m) [(i, u)]','C37: one index per object',T)
m('Migrate','mig_ns','(m_ns m ++ [(i, n)])','(m_ns m)','(harmless?) namespace cached',T)
m('Migrate','mig_ent','(ni, ename e)','(0, ename e)','C37: entities keep their namespace',T)
m('Migrate','mig_master','None => mret wrapper','None => mfail KeyError','C37: the root becomes a wrapper',T)
m('Migrate','mig_rel','insert_rels (si, p, oi)','insert_rels (oi, p, si)','C37: relationships keep their direction',T)
m('Migrate','mig_rel','if decide (t = 0) then','if decide (o = 0) then','C37: the inverse of links to the root',T)
m('Migrate','mig_rel','insert_rels (oi, p, si)','insert_rels (si, p, oi)','C37: the inverse of links to the root',T)
m('Migrate','mig_triple','(default xsd_string d) si p v','xsd_string si p v','C37: values keep their datatype',T)
m('Migrate','mig_row','(zip attrs (fst row))','(zip attrs (rev (fst row)))','C37: values belong to their attributes',T)
m('Migrate','migrate_all','(fun _ => mseq mig_table (o_data d))','(fun _ => mret ())','C37: attribute values are kept',T)
m('Migrate','migrate_0_1','| (Err e, _) => (Err e, (Some d, v1))','| (Err e, m) => (Err e, (None, m_db m))','C37: a failed migration changes nothing',T)
T='PropCross'
m('CudsX','clone','match snd t with TType _ =>','match snd t with TType _ => true || ','(harmless?) clone carries more types',T)
m('CudsX','neighbor_diff','if nonactive && active r then []','if active r then []','C21: new children count',T)
m('CudsX','neighbor_diff','negb (match g2 with','(match g2 with','C21: differences',T)
m('CudsX','create_recycle','(filter (fun t => fst t <> u) g ∪ own u c attrs)','(g ∪ own u c attrs)','C20: old attributes are replaced',T)
m('CudsX','create_recycle','let g := no_links (gr s) u in','let g := gr s in','(harmless? filter follows) old links are removed',T)
m('CudsX','create_from','set_neighbor (graph_of w cl) (o_uid cl) r v (classes gs v)','set_neighbor (graph_of w cl) v r (o_uid cl) (classes gs v)','C20: links are copied in their direction',T)
m('CudsX','create_from','w1 (rels_of gs u), Ok cl)','w1 (tail (rels_of gs u)), Ok cl)','C20: all links are copied',T)
m('CudsX','fix_new_parent','(o_inv O r) (o_uid new)','r (o_uid new)','C21: the parent gets the inverse link',T)
m('CudsX','fix_new_parent','| None => (w, missing ++ [(v, (new, r))])','| None => (w, missing)','C21: no dangling links',T)
m('CudsX','fix_old_neighbor','(remove_direct (graph_of w nb) (o_uid nb) (o_inv O r) (o_uid new))','(remove_direct (graph_of w nb) (o_uid nb) r (o_uid new))','C21: removed children lose the back link',T)
m('CudsX','add_children','if decide (v ∈ stored) then','if false then','C20: termination',T)
m('CudsX','add_children','(stored ∪ {[u]})','stored','C20: termination',T)
m('CudsX','delete_missing','foldl (fun w x','foldl (fun w _ => w) w [] |> fun w => foldl (fun w x','skip',T)
M.pop()
m('CudsX','delete_missing','(remove_direct (graph_of w o) (o_uid o) r v)','(graph_of w o)','C21: no dangling links',T)
m('CudsX','store_loop','let missing1 := filter (fun x => fst x <> o_uid new) missing in','let missing1 := missing in','C21: links to objects added later are kept',T)
m('CudsX','x_add','if linked (graph_of w a) (o_uid a) r (o_uid b) then (w, Err ValueError) else','','C19: adding twice is refused',T)
m('CudsX','x_add','(o_uid b\') (o_inv O r) (o_uid a) (classes','(o_uid b\') r (o_uid a) (classes','C21: the inverse link',T)
m('CudsX','update_all','if decide (o_sid b = o_sid a) then (w, Err ValueError) else','if decide (o_sid b = o_sid a) then (w, Ok []) else','C19: update of the same session is refused',T)
m('CudsX','x_update','else (w, Err ValueError)','else (w, Ok [])','C19: update of unknown objects is refused',T)
m('CudsX','recursive_store','{[ o_uid new; o_uid self ]}','{[ o_uid new ]}','(different) the target object is copied onto itself',T)
json.dump(M,open('/tmp/w/muts3.json','w'))
print(len(M))
