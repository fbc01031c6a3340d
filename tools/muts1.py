import json
M=[]
def m(file,d,old,new,claim,targets,**k): M.append(dict(file=file,**{'def':d},old=old,new=new,claim=claim,targets=' '.join('theories/%s.vo'%t for t in targets.split()),**k))
T='PropTransport'
m('Proto','to_bytes','(256 ^ N.of_nat len <=? Z.to_N z)%N','(256 ^ N.of_nat len <? Z.to_N z)%N','C02: a number that needs len+1 bytes is refused',T)
m('Proto','decode_header','if length bs <? len then Err IndexError','if length bs <=? len then Err IndexError','C02: every encoded header is decoded',T)
m('Proto','num_blocks_of','(n + (bsize - 1)) / bsize','n / bsize + 1','C03: number of blocks (a message of exactly k blocks)',T)
m('Proto','split_message','slice (i * bsize) ((i + 1) * bsize) b','slice (i * bsize) ((i + 1) * bsize - 1) b','C03: no byte of a message is lost',T)
m('Proto','join_message','| Ok (d, w\') => match utf8_decode d with','| Ok (d, w\') => match utf8_decode (firstn 4096 d) with','C03: long messages are recovered',T)
m('Proto','client_encode','EInt (Z.of_nat (length files)); EStr command]','EInt (Z.of_nat (length files) - 1); EStr command]','C01: all files of a request arrive',T)
m('Proto','encode_file','encode_header [EInt (Z.of_nat n); EStr (basename path)]','encode_header [EInt (Z.of_nat n); EStr path]','C01: files are sent under their base name',T)
m('Server','(see edit)','','','',T) if False else None
m('Files','target_name','if starts_with u base then base else u ++ 45%N :: base','base','C47: files of different objects get different names',T)
m('Files','move_file','let tp := path_join target (target_name (fc_uid c) base) in','let tp := path_join target base in','C47: a file of another object is not overwritten',T)
C='PropCuds PropTraverse'
m('Cuds','add','let g2 := add_direct g1 b (o_inv O r) a in','let g2 := g1 in','C09: the inverse link is added',C)
m('Cuds','add','let g2 := add_direct g1 b (o_inv O r) a in','let g2 := add_direct g1 b r a in','C09: the inverse relationship is used',C)
m('Cuds','remove_rels','if present then remove_rels O (remove_direct g1 b (o_inv O r) a) a b present rs\'','if present then remove_rels O g1 a b present rs\'','C09/C11: the inverse link is removed',C)
m('Cuds','add','if linked (gr s) a r b then (s, Err ValueError)','if false then (s, Err ValueError)','C10: adding twice raises',C)
m('Cuds','get_by_uids','if decide (i ∈ nf) then None else Some u','if decide (i ∈ nf) then Some u else None','C12: objects not connected give None',C)
m('Cuds','by_uids_step','| [] => filter (fun iu => fst iu ∈ nf) all\n                  | _ => all','| [] => filter (fun iu => fst iu ∈ nf) all\n                  | _ => filter (fun iu => fst iu ∈ nf) all','C11: remove() by uid removes all relationships',C)
m('Cuds','class_ok','existsb (fun t => o_csub O t c) (classes g u)','existsb (fun t => bool_decide (t = c)) (classes g u)','C13: class filter includes subclasses',C)
m('Cuds','rel_ok','Some s => o_sub O r s','Some s => o_sub O s r','C13: relationship filter includes subrelationships (not super-)',C)
m('Cuds','set_attr','filter (fun t => is_attr_of u a t = false) (gr s) ∪ {[ (u, TAttr a l) ]}','gr s ∪ {[ (u, TAttr a l) ]}','C14: the old value is replaced',C)
m('Cuds','is_attr_of','bool_decide (u\' = u) && bool_decide (a\' = a)','bool_decide (a\' = a)','C14: other objects keep their attribute',C)
m('Cuds','delete_triples','filter (fun t => fst t <> u) (gr s)','gr s','C15: nothing of a deleted object remains',C)
m('Cuds','delete_cuds_object','match remove O s u [] (Some (o_relationship O)) None with\n      | (s1, Some e) => (s1, Some e)\n      | (s1, None) => delete_triples s1 u\n      end','delete_triples s u','C15: links to a deleted object are removed',C)
m('Cuds','load_back','| None :: us => None :: load_back us loaded','| None :: us => load_back us loaded','C12: one result per uid',C)
P='PropTraverse'
m('Traverse','find_cuds_object','if decide (sub ∈ visited) then loop subs visited output\n                 else match find','if decide (sub ∈ ({[root]} : gset uid)) then loop subs visited output\n                 else match find','C17: terminates on cyclic graphs',P)
m('Traverse','find_cuds_object','bool_decide (depth < d)','bool_decide (depth <= d)','C17: max_depth is respected',P)
m('Traverse','find_cuds_object','loop subs visited\' (output ++ l)','loop subs visited\' l','C17: find_all returns all',P)
m('Traverse','get_subtree','| Some sub => loop cs (subtree ∪ sub)','| Some sub => loop cs sub','C18: subtree is complete',P)
m('Traverse','prune','filter (fun u => u ∉ keep) (elements (reg s))','filter (fun u => u ∈ keep) (elements (reg s))','C16: exactly the unreachable objects are deleted',P)
O='PropOnto'
m('Onto','dc_visit','(visited ∪ {[o]}) (frontier ∪ {[o]})','visited (frontier ∪ {[o]})','C22: terminates on cyclic hierarchies, no duplicates',O)
m('Onto','dc_visit','(visited ∪ {[o]}) (frontier ∪ {[o]})','(visited ∪ {[o]}) frontier','C22: indirect superclasses are found',O)
m('Onto','superclasses','transitive_hull pick g pred false bl fuel iri','transitive_hull pick g pred true bl fuel iri','C22: superclasses are the superclasses',O)
m('Onto','is_subclass_of','superclasses pick g pred bl fuel other.\nDefinition is_subclass','superclasses pick g pred bl fuel other.\nDefinition is_subclass','',O) if False else None
m('Inverse','new_inverse','{[ (r, p_inverseOf, mk r) ]}','{[ (mk r, p_type, owl_Class) ]}','C23: asking again gives the same inverse',O)
m('Inverse','inverse','loop ss (g\' ∪ {[ (mk r, p_subPropertyOf, i) ]})','loop ss (g\' ∪ {[ (mk r, p_subPropertyOf, s) ]})','C24: the inverse is below the inverses of the superrelationships',O)
m('Inverse','find_inverse','| [] => match filter','| [] => match filter (fun _ => false = true) $ filter','C23: an inverse declared in the other direction is found',O)
I='PropInstall'
m('Install','ready','bool_decide (r ∈ installed \\/ r ∈ result.*1)','true','C38: requirements are installed before',I)
m('Install','skip_installed','if decide (i ∈ dom (disk st)) then\n              if','if decide (i ∉ dom (disk st)) then\n              if','C39: installed packages are skipped',I)
m('Install','install_core','| (m, Some e) => (Inst (disk st) m, Some e)','| (m, Some e) => (Inst ∅ m, Some e)','C39: a failing installation keeps what is installed',I)
m('Install','remaining_packages','kv.1 ∉ rm','kv.1 ∈ rm','C39: uninstall removes the given packages',I)
Q='PropQuery'
m('QueryResult','q_next','| Some (x, q\') => (q\', Ok x)','| Some (x, q\') => (Q (q_elems q) (q_rest q\'), Ok x)','C41: elements taken by next() are not lost',Q)
m('QueryResult','q_one','if (1 <? length (q_elems q1))%nat','if (2 <? length (q_elems q1))%nat','C41: one() raises for two results',Q)
m('QueryResult','q_first','| x :: _ => (q, x)','| x :: r => (Q r (q_rest q), x)','C41: first() keeps the element',Q)
D='PropDatatype PropSqlUtil'
m('Datatype','to_string','(maxsize <? Z.of_nat (List.length x))%Z','(maxsize <=? Z.of_nat (List.length x))%Z','C40: strings of exactly the maximal length are accepted',D)
m('Datatype','vector_iri','VEC_PREFIX ++ yml_name b ++ lit "-" ++','VEC_PREFIX ++','C40: the element type is part of the datatype',D)
m('Datatype','unflatten','chunks n (size sh) l','chunks n n l','C40: vectors are recovered',D)
m('SqlUtil','determine_datatype','if startswith (p ++ lit "OWL_") t then OWL','if startswith (p ++ lit "RDF") t then RDF ++ after (p ++ lit "RDF_") t else if startswith (p ++ lit "OWL_") t then OWL','C35: RDFS tables are not taken for RDF tables','PropSqlUtil')
m('SqlUtil','check_loop','if existsb (N.eqb c) s then Err ValueError','if startswith [c] s then Err ValueError','C34: a semicolon anywhere is refused','PropSqlUtil')
m('SqlUtil','vec_col','column ++ lit "___" ++ dec i','column ++ lit "___" ++ dec (i mod 10)','C33: long vectors are stored completely','PropSqlUtil')
m('SqlUtil','get_condition_pattern','get_condition_pattern y (prefix ++ dec i)','get_condition_pattern y prefix','C36: every condition has its own parameter','PropSqlUtil')
W='PropWrapper PropCommit'
m('Wrapper','notify_update','else if decide (u ∈ badd b ∪ bupd b) then (w, None)','else if decide (u ∈ bupd b) then (w, None)','C25: added objects are not also updated',W)
m('Wrapper','notify_delete','if decide (u ∈ badd b) then set_cur_buf w (Bufs (badd b ∖ {[u]}) (bupd b) (bdel b))','if decide (u ∈ badd b) then set_cur_buf w (Bufs (badd b ∖ {[u]}) (bupd b) (bdel b ∪ {[u]}))','C25: deleted objects were known to the backend',W)
m('Wrapper','enter_engine','set_cur (if decide (cur w = ENGINE) then w else set_eb w no_bufs) ENGINE','(if decide (cur w = ENGINE) then w else set_eb w no_bufs)','C26: loading does not touch the user buffers',W)
m('Wrapper','in_engine','(set_cur w\' (cur w), a)','(w\', a)','C26: the context is restored',W)
m('Wrapper','expire','let ok := us ∖ buids (ub w) in','let ok := us in','C27: objects with pending changes are not expired',W)
m('Wrapper','notify_read','if decide (u ∈ expd w) then refresh isW w [u] else (w, None)','(w, None)','C27: an expired object is reloaded when read',W)
m('Wrapper','commit_acts','mjoin (map (fun u => [DRemove (sub_root r u); DAdd (out_triples r g u)]) (elements (bupd b)))','mjoin (map (fun u => [DAdd (out_triples r g u)]) (elements (bupd b)))','C28: old triples of updated objects are removed',W)
m('Wrapper','commit_acts','map (fun u => DRemove (sub_root r u)) (elements (bdel b))','[]','C28: deleted objects are removed from the backend',W)
m('Wrapper','w_commit','(expire_all (set_db (set_ub w no_bufs) (foldl run_act (db w) acts)), None)','(expire_all (set_db w (foldl run_act (db w) acts)), None)','C28: the buffers are empty after commit',W)
m('Wrapper','w_commit','if decide (k < length acts) then (w, Some BackendError)','if decide (k < length acts) then (set_ub w no_bufs, Some BackendError)','C29: a failed commit can be retried',W)
m('Wrapper','load_iri','let du := sub_root r u in','let du := u in','C30/C31: the root is loaded from the zero uid',W)
m('Wrapper','missing_uids','u ∉ wreg w \\/ u ∈ expd w','u ∉ wreg w','C30: expired objects are fetched',W)
U='PropUuid'
m('Uuid','hexfix','hexfix k\' (n / 16)%N','hexfix k\' (n / 32)%N','C42: round trip',U)
m('Uuid','uuid_str','let h := hexfix 32 u in','let h := hexfix 31 u in','C42: the first digit is kept',U)
m('Uuid','substitute_zero','subst_triple 0 root','subst_triple root 0','C31: the zero IRI is replaced on load',U)
m('Uuid','subst_term','Ok (if N.eqb u from then TIri (iri_from_uid to) else t)','Ok (TIri (iri_from_uid to))','C31: other objects are left alone',U)
m('Uuid','uid_from_iri','uuid_of_text (after cuds_prefix iri)','uuid_of_text iri','C42: the prefix is cut off',U)
json.dump([x for x in M if x],open('/tmp/w/muts1.json','w'))
for x in M:
    s=open('/verif/rocq/theories/%s.v'%x['file']).read()
    if x['old'] not in s: print('NOT FOUND',x['file'],x['def'],x['old'][:60])
print(len(M))
