import json
M=[]
def m(file,d,old,new,claim,targets,**k):
    s=open(f'/verif/rocq/theories/{file}.v').read()
    if s.count(old)<1: print('MISSING',file,d,old)
    if s.count(old)>1: print('MULTI',file,d,old)
    M.append(dict(file=file,**{'def':d},old=old,new=new,claim=claim,targets=f'theories/{targets}.vo',iters=14,**k))
T='PropYml'
m('Yml','truthy','| YS (Validator.SInt z) => negb (z =? 0)%Z','| YS (Validator.SInt z) => true','C50: default_rel: 0 is false',T)
m('Yml','f_attributes','| (SStr k, YS Validator.SNone) => Some (k, None)\n','','C51: a null value is no default',T)
m('Yml','split_name','Ok (lower a, b)','Ok (a, b)','C50: namespaces are case insensitive',T)
m('Yml','split_name','Ok (lower a, b)','Ok (lower b, a)','C50: namespace.name',T)
m('Yml','ns_iri','++ ns ++ lit "#"','++ ns','C50: default IRI of a namespace',T)
m('Yml','ns_iri','| Some i => i\n    | None => lit "http','| Some i => i ++ lit "#"\n    | None => lit "http','C50: the bound IRI is used',T)
m('Yml','labelled','o = LIT (len name) /\\ startswith i (text n) = true','o = LIT (len name) /\\ True','C50: only labels of the namespace count',T)
m('Yml','candidate','if decide (c = ∅) then i ++ name else text (pick c)','i ++ name','C50: references by label',T)
m('Yml','candidate','if decide ((I i, p_reference_by_label, LIT ltrue) ∈ g) then','if decide (True) then','C50: names are suffixes unless reference_by_label',T)
m('Yml','defined','else is_subject g (candidate g ns name).','else true.','C50: references to undefined entities are refused',T)
m('Yml','defined','if str_eqb ns own then bool_decide (is_Some (assoc name es))','if str_eqb ns own then true','C50: references to undefined entities of the document are refused',T)
m('Yml','get_iri','if defined g ns name\' then Ok (candidate g ns name\') else Err AttributeError','Ok (candidate g ns name\')','C50: the alternative name must be defined',T)
m('Yml','get_iri','| Ok None => Err AttributeError','| Ok None => Ok (candidate g ns name)','C50: undefined names are refused',T)
m('Yml','get_iri','Ok (candidate g ns name\') else Err AttributeError','Ok (candidate g ns name) else Err AttributeError','C50: the found spelling is used',T)
m('Yml','types_loop','let types\' := types ∪ types_of g i in','let types\' := types_of g i in','C50: kinds of all superclasses are collected',T)
m('Yml','types_loop','types_loop fuel\' g (rev qs ++ queue\') types\'','types_loop fuel\' g (rev qs) types\'','C50: kinds of all superclasses are collected',T)
m('Yml','add_type_triple','if decide (types = ∅) then raise ValueError\n    else','','C50: an entity without kind is refused',T)
m('Yml','add_superclass','add (I i, p, I j) s','add (I j, p, I i) s','C50: direction of subclass_of',T)
m('Yml','add_superclass','then p_subClassOf else p_subPropertyOf','then p_subPropertyOf else p_subClassOf','C50: subClassOf for classes',T)
m('Yml','load_entity','for_each (add_superclass i) (f_supers f)','for_each (add_superclass i) (firstn 1 (f_supers f))','C50: all superclasses',T)
m('Yml','load_entity','mbind (add (I i, p_prefLabel, LIT (len name)))','mbind (ret tt)','C50: labels',T)
m('Yml','load_entity','add (I i, p_isDefinedBy, LIT (len d))','add (I i, p_isDefinedBy, LIT (len name))','C50: descriptions',T)
m('Yml','validate_entity','| true, false, false => Some KClass','| true, _, _ => Some KClass','C50: one kind only',T)
m('Yml','validate_entity','mbind (lift (fun _ => valid_as k f)) (fun _ => ret k) s','ret k s','C50: keys of another kind are refused',T)
m('Yml','default_rels','match get "default_rel" d with Some _ => 1 | None => 0 end','0','C50: at most one default relationship',T)
m('Yml','parse_ontology','if (1 <? default_rels d)%nat then raise ValueError else ret tt','ret tt','C50: at most one default relationship',T)
m('Yml','parse_ontology','(1 <? default_rels d)%nat','(2 <? default_rels d)%nat','C50: at most one default relationship (boundary)',T)
m('Yml','default_rel_of_doc','if installed ns n then','if true then','C50: the default relationship must be installed',T)
m('Yml','default_rel_of_doc','add (I (ns_iri own), p_default_rel, I j)','add (I (ns_iri ns), p_default_rel, I j)','C50: default_rel belongs to the namespace of the document',T)
m('Yml','set_inverse','add (I i, p_inverseOf, I j)','ret tt','C50: inverse',T)
m('Yml','set_inverse','add (I i, p_inverseOf, I j)','add (I i, p_inverseOf, I i)','C50: inverse',T)
m('Yml','default_rel_flag','| Some true =>','| Some _ =>','C50: default_rel: false is no default',T)
m('Yml','custom','startswith Datatype.STR_PREFIX dt || startswith Datatype.VEC_PREFIX dt','startswith Datatype.VEC_PREFIX dt','C50: custom datatypes are declared',T)
m('Yml','set_datatype','add (I i, p_range, I dt))','add (I dt, p_range, I i))','C50: datatype is the range',T)
m('Yml','set_datatype','| Ok None => raise AssertionError','| Ok None => ret tt','C50: datatypes without an rdflib type are refused',T)
m('Yml','add_attr','(b1, p_onProperty, I a)','(b1, p_onProperty, I c)','C51: attributes',T)
m('Yml','add_attr','(b1, p_cardinality, LIT lone); ','','C51: attributes are obligatory',T)
m('Yml','add_attr','mbind fresh_bnode (fun b2 =>','mbind (ret b1) (fun b2 =>','C51: fresh blank nodes',T)
m('Yml','add_attributes','if decide ((I a, p_type, owl_DatatypeProperty) ∈ p_graph s) then add_attr c a (snd av) s\n        else (s, Err ValueError)','add_attr c a (snd av) s','C51: only attributes may be attributes',T)
m('Yml','add_attributes','add_attr c a (snd av) s','add_attr c a None s','C51: default values',T)
m('Yml','fresh_bnode','(Pst (p_graph s) (N.succ (p_next s)), Ok','(Pst (p_graph s) (p_next s), Ok','C51: each attribute has its own blank node',T)
m('Yml','parse','let own := lower ns in','let own := ns in','C50: lower case namespace',T)
m('Yml','parse','Namespace.ns_bind own (ns_iri (Namespace.st_ns st) own) st in','st in','C50_binds: the namespace is bound',T)
m('Yml','parse','| Err e => (st, (s, Err e))\n  | Ok _ =>','| Err e => (st, (s, Err e))\n  | Ok tt =>','(equivalent) control',T)
m('Yml','parse_ontology','| KRel => mbind (set_inverse name f) (fun _ => default_rel_flag name f)','| KRel => set_inverse name f','C50: default_rel flag of an entity',T)
T='PropUtils'
m('Utils','delete_all','| (s1, None) => delete_all O s1 l\'','| (s1, None) => (s1, None)','delete_cuds_object_recursively deletes everything found',T)
m('Utils','remove_each','| (s1, None) => remove_each O s1 a l\'','| (s1, None) => (s1, None)','remove_cuds_object removes all links',T)
m('Utils','remove_cuds_object','iter_nbrs O s (Some (o_relationship O)) a)','iter_nbrs O s (Some (o_active O)) a)','remove_cuds_object removes passive links too',T)
m('Utils','relationships_between','linked (gr s) a r b','linked (gr s) b r a','get_relationships_between direction',T)
m('Utils','has_relationship','(fun q => o_sub O q r)','(fun q => o_sub O r q)','find_relationships with subrelationships',T)
m('Utils','is_a','o_csub O d c','o_csub O c d','is_a direction',T)
m('Utils','attr_equals','| x :: _ => eqv x','| x :: _ => true','find by attribute value',T)
m('Utils','reg_filter','filter (fun u => crit u = true)','filter (fun u => crit u = false)','registry filter',T)
m('Utils','filter_by_oclass','head (classes (gr s) u) = Some c','last (classes (gr s) u) = Some c','filter_by_oclass: the class of the object',T)
m('Utils','find_all_below','crit true None 0 u','crit false None 0 u','find all',T)
T='PropPrint'
m('Print','key_cmp','| Eq => match str_cmp (l_rel L (snd x)) (l_rel L (snd y)) with','| Eq => match str_cmp (l_rel L (snd y)) (l_rel L (snd x)) with','pretty_print order',T)
m('Print','incomparable','bool_decide (l_name L (fst x) = None) &&','true &&','pretty_print TypeError exactly for names and no names',T)
m('Print','sort_pairs','else Ok (merge_sort key_le ps)','else Ok ps','pretty_print order',T)
m('Print','iter_rel','if forallb (fun ur : uid * gset rel => bool_decide (fst ur ∈ reg s)) m\n','if true\n','missing objects',T)
m('Print','sorted_rels','(filter (fun r => o_sub O r (o_active O) = true) (rels_of (gr s) u))','(rels_of (gr s) u)','only active relationships are printed',T)
m('Print','pp_objs','if decide (b ∈ visited) then','if decide (False) then','already printed objects are not expanded again',T)
m('Print','pp_objs','else pp_objs rec k u r ps\' visited\n','else pp_objs rec k u r [] visited\n','all children are printed',T)
m('Print','pp_rels','match pp_rels rec k u rs\' v1 with','match pp_rels rec k u rs\' visited with','the visited set is shared',T)
m('Print','pp_subelements','(visited ∪ {[u]})','visited','the root is not expanded again',T)
m('Print','shorten_uid','firstn 8 (uuid_str u)','firstn 0 (uuid_str u)','Cuds2dot ids begin with 8 characters',T)
m('Print','add_node','bool_decide (shorten_uid u = shorten_uid rt)','bool_decide (u <> rt)','the root is coloured',T)
m('Print','add_edges','DEdge (shorten_uid a) (shorten_uid b) a r b','DEdge (shorten_uid b) (shorten_uid a) a r b','direction of edges',T)
m('Print','add_related','else match rec (visit (add_node d1 b) b) b with','else match rec (add_node d1 b) b with','each object drawn once',T)
m('Print','add_related','if decide (b ∈ d_visited d1) then add_related rec a l\' d1','if decide (b ∈ d_visited d1) then Some d1','all edges are drawn',T)
m('Print','add_directly_related','iter_nbrs O s (Some (o_relationship O)) a','iter_nbrs O s (Some (o_active O)) a','all relationships are drawn',T)
m('Print','render','visit (add_node d rt) rt','visit d rt','the root is drawn',T)
T='PropSim'
m('Sim','invoke_all','| (s1, None) => invoke_all isW K cs\' s1','| (s1, None) => (s1, None)','all methods are called',T)
m('Sim','sim_engine','(set_w s\' (set_cur (s_w s\') (cur (s_w s))), e)','(s\', e)','the buffer context is restored',T)
m('Sim','sim_run','if s_ran s then [CAdded','if negb (s_ran s) then [CAdded','_initialize on the first run',T)
m('Sim','sim_run','CUpdated r (bupd b); CDeleted r (bdel b)]\n                                  else','CDeleted r (bdel b)]\n                                  else','updates are applied',T)
m('Sim','sim_run','(CRun r) (set_w s1 (set_ub (s_w s1) no_bufs))','(CRun r) s1','buffers are reset',T)
m('Sim','sim_run','(set_w (set_ran s2) (expire_all (s_w s2)), None)','(set_w s2 (expire_all (s_w s2)), None)','second run is an update',T)
m('Sim','sim_run','(set_w (set_ran s2) (expire_all (s_w s2)), None)','(set_ran s2, None)','everything is expired after a run',T)
m('Sim','file_save','CDeleted r (bdel b); CSave; CClose]','CDeleted r (bdel b); CSave]','the file is closed',T)
m('Sim','file_save','CDeleted r (bdel b); CSave; CClose]','CDeleted r (bdel b); CClose; CSave]','saved before closed',T)
m('Sim','file_save','(expire_all (set_ub (s_w s1) no_bufs))','(expire_all (s_w s1))','buffers are reset after save',T)
T='PropUri'
m('Uri','rpartition','match partition c (rev s) with','match partition c (rev (rev s)) with','userinfo ends at the last @',T)
m('Uri','partition','| (a, _ :: b) => (a, Some b)','| (a, b) => (a, Some b)','separator removed',T)
m('Uri','urlsplit','then (lower (x :: a), b) else','then ((x :: a), b) else','scheme lower case',T)
m('Uri','urlsplit','N.eqb c slash || N.eqb c qmark || N.eqb c hash) r','N.eqb c slash || N.eqb c hash) r','host ends at ?',T)
m('Uri','urlunsplit','else url ++ hash :: p_frag p','else url','the fragment is kept',T)
m('Uri','urlunsplit','if str_eqb (p_query p) [] then url else url ++ qmark :: p_query p','url','the query is kept',T)
m('Uri','parse_uri','if truthy user || truthy pw then','if truthy user then','password without user is stripped',T)
m('Uri','parse_uri','(split_on at_sign (p_netloc p)) 1','(split_on at_sign (p_netloc p)) 0','credentials are not sent in the URI',T)
m('Uri','parse_uri','(p_path p) (p_query p) (p_frag p))), user, pw)','(p_path p) (p_query p) (p_frag p))), pw, user)','user and password',T)
m('Uri','userinfo','(Some user, pw)','(Some user, Some [])','password',T)
m('Uri','lstrip','if blank c then lstrip s\' else s','s','leading blanks',T)
T='PropNamespace'
m('Namespace','free_prefix','if str_eqb i iri then None','if str_eqb i p then None','bound prefixes are not taken',T)
m('Namespace','ns_bind','free_prefix (S (List.length (st_ns st))) p\' iri 1 (st_ns st)','free_prefix 1 p\' iri 1 (st_ns st)','a free prefix is found',T)
m('Namespace','ns_bind','| Some q => store_bind q iri st\n        | None => st','| Some q => store_bind p iri st\n        | None => st','a bound prefix is not rebound',T)
T='PropCross'
m('CudsX','x_update','if forallb (fun x => bool_decide (x <> None)) olds\n','if true\n','update refuses objects that are not there',T)
m('CudsX','x_update','(map o_uid bs) (Some (o_active O)) None','(map o_uid bs) (Some (o_relationship O)) None','update refuses objects that are not active children',T)
m('CudsX','update_all','if decide (o_sid b = o_sid a) then (w, Err ValueError) else\n','','update refuses objects of the same session',T)
json.dump(M,open('/tmp/w/muts4.json','w'),indent=1)
print(len(M))
