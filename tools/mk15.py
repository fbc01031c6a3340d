import json
M=[]
def m(f,d,o,n,c): 
    s=open('/verif/rocq/theories/%s.v'%f).read()
    if s.count(o)<1: print('NOT FOUND',d,o[:60])
    M.append(dict(file=f,**{'def':d},old=o,new=n,claim=c))
F='SqlSession'
m(F,'send','| Some UniqueError => (Ok None, s)','| Some UniqueError => (Err OperationalError, s)','adding a triple twice is no error')
m(F,'send','(Ok (Some rows), SqlS db (q_ns s))','(Ok (Some rows), s)','statements change the database (dropped update)')
m(F,'select','match r with Some rows => rows | None => [] end','match r with Some (x :: _) => [x] | _ => [] end','reads return all rows (only the first)')
m(F,'insert_id','last (trows x) (fun _ => null) key','hd (fun _ => null) (trows x) key','the new index is that of the new row')
m(F,'load_namespaces','(nth 0 r null, nth 1 r null)','(nth 1 r null, nth 0 r null)','index to namespace, not the reverse')
m(F,'load_namespaces','SqlS (q_db s) (map','SqlS (q_db s) (q_ns s ++ map','namespaces are loaded afresh (appended; harmless duplicates)')
m(F,'cached_idx','same (snd x) n','same (fst x) n','namespace looked up by its IRI')
m(F,'cached_ns','same (fst x) i','same (snd x) i','namespace looked up by its index')
m(F,'get_ns_idx','mbind load_namespaces (fun _ s\' =>\n          (match cached_idx (q_ns s\') n with Some i => Ok i','mbind (ret tt) (fun _ s\' =>\n          (match cached_idx (q_ns s\') n with Some i => Ok i','the namespaces are loaded after a new one was inserted')
m(F,'get_ns_idx','| None =>\n        mbind (insert NAMESPACES_TABLE [lit "namespace"] [n])','| None =>\n        mbind (ret tt)','a new namespace is inserted')
m(F,'get_ns_idx','match cached_idx (q_ns s) n with\n    | Some i => (Ok i, s)','match (if same n n then @None V else cached_idx (q_ns s) n) with\n    | Some i => (Ok i, s)','known namespaces are not inserted again')
m(F,'split_namespace','ret (i, snd e)','ret (snd e, i)','(index, name) in this order')
m(F,'get_cuds_idx','| [] => insert_id CUDS_TABLE (lit "cuds_idx") [lit "uid"] [u]','| [] => insert_id CUDS_TABLE (lit "uid") [lit "uid"] [u]','the index of a new object is its key, not its uid')
m(F,'get_cuds_idx','mbind (select (cuds_lookup as_set u)) (fun rows =>\n      match rows with','mbind (select (cuds_lookup as_set u)) (fun rows =>\n      match (if same u u then [] else rows) with','a known object is not inserted again')
m(F,'get_cuds_idx','| (i :: _) :: _ => ret i\n      | [] :: _ => lift (Err ValueError)\n      end).\n  (** sql_wrapper_session.py:336','| (_ :: i :: _) :: _ => ret i\n      | _ :: _ => lift (Err ValueError)\n      end).\n  (** sql_wrapper_session.py:336','the first column is the index')
m(F,'get_entity_idx','[lit "ns_idx"; lit "name"] [fst x; snd x]','[lit "ns_idx"; lit "name"] [snd x; fst x]','entity columns swapped')
m(F,'get_entity_idx','select (entity_lookup as_set (fst x) (snd x))','select (entity_lookup as_set (snd x) (fst x))','entity lookup swapped')
m(F,'add','insert RELATIONSHIP_TABLE cols [si; pi; oi]','insert RELATIONSHIP_TABLE cols [oi; pi; si]','subject and object swapped')
m(F,'add','mbind (get_cuds_idx o) (fun oi => mbind (lift (add_columns RELATIONSHIP_TABLE XSD_integer))','mbind (get_cuds_idx s) (fun oi => mbind (lift (add_columns RELATIONSHIP_TABLE XSD_integer))','object of the relationship')
m(F,'add','insert TYPES_TABLE cols [si; ci]','insert TYPES_TABLE cols [ci; si]','subject and class swapped')
m(F,'add','insert t cols (si :: pi :: ws)','insert t cols (pi :: si :: ws)','subject and predicate swapped')
m(F,'add','(fun cols => insert t cols (si :: pi :: ws))','(fun cols => let _ := insert t cols (si :: pi :: ws) in ret tt)','values are stored (dropped)')
m(F,'remove','mbind (send (db_delete RELATIONSHIP_TABLE (Some c)))','mbind (send (db_delete RELATIONSHIP_TABLE None))','only the fitting relationships are removed (all)')
m(F,'remove','mbind (send (db_delete TYPES_TABLE (Some c)))','mbind (send (db_delete RELATIONSHIP_TABLE (Some c)))','types are removed from the table of types')
m(F,'remove','(IPattern si pi ws) t dt','(IPattern si pi None) t dt','only the given value is removed')
m(F,'remove','(IPattern si None (option_map (fun o => [o]) ci))','(IPattern si None None)','only the given type is removed')
m(F,'remove','(IPattern si pi (option_map (fun o => [o]) oi))','(IPattern oi pi (option_map (fun o => [o]) si))','subject and object of the pattern swapped')
m(F,'row_to_triple','| s :: i :: nm :: r\' =>','| s :: nm :: i :: r\' =>','columns of an answer')
m(F,'row_to_triple','ret (TData t dt s (n, nm) r\')','ret (TData t dt s (n, nm) (s :: r\'))','values are the remaining columns')
m(F,'query','(Pattern s pe (option_map OUid o)) RELATIONSHIP_TABLE','(Pattern None pe (option_map OUid o)) RELATIONSHIP_TABLE','the subject of the pattern counts')
m(F,'query','(Pattern s None (option_map (fun \'(i, nm) => OEnt i nm) ce)) TYPES_TABLE','(Pattern s None (option_map (fun \'(i, nm) => OEnt nm i) ce)) TYPES_TABLE','class of a pattern swapped')
m(F,'query','(Pattern s pe (option_map OVal ws)) t dt','(Pattern s None (option_map OVal ws)) t dt','the predicate of the pattern counts')
m(F,'subject_patterns','PRel u None None :: PType u None ::','PRel u None None ::','all tables are searched (types left out)')
m(F,'remove_subject','mbind (mapMs remove (order','mbind (mapMs remove (tl (order','x') if False else None
m(F,'query_subject','ret (concat l)','ret (match l with x :: _ => x | [] => [] end)','answers of all tables')
json.dump(M,open('muts15.json','w'),indent=1); print(len(M))
