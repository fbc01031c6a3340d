import json
M=[]
def m(file,d,old,new,claim,targets,**k):
    s=open('/verif/rocq/theories/%s.v'%file).read()
    if s.count(old)<1: print("NOT FOUND",file,d,old[:60])
    M.append(dict(file=file,**{'def':d},old=old,new=new,claim=claim,targets=' '.join('theories/%s.vo'%t for t in targets.split()),**k))
T='PropTransport'
m('Server','dispatch','negb (starts_with [95%N] command)\n                  && ','true && ','C04: private methods are refused',T)
m('Server','dispatch','&& negb (wrapper_has command)','','C04: methods of the base class are refused',T)
m('Server','init_session','(note (put s c (SO (so_state o) true)) c CClose,\n                       close (so_state o))','(s, None)','C05: re-initialising closes the old session',T)
m('Server','handle_disconnect','(Srv (delete c (sessions s1)) (log s1), None)','(Srv ∅ (log s1), None)','C05: disconnecting only ends the own session',T)
m('Server','handle_disconnect','(Srv (delete c (sessions s1)) (log s1), None)','(s1, None)','C05: the session of a closed connection is forgotten',T)
m('Server','load_from_session','(note (put s c (SO st\' (so_closed o))) c CLoad, json_obj r)','(note (put s 1%positive (SO st\' (so_closed o))) c CLoad, json_obj r)','C05: requests act on the session of their own connection',T)
m('Server','handle_request','| Err e => ERROR_PREFIX ++ exn_text e','| Err e => exn_text e','C04: the client sees the failure',T)
m('Files','check_hash','if decide (d\' = d) then (true, hs) else (false, <[name := d]> hs)','if decide (d\' = d) then (true, hs) else (false, hs)','C06: the peer has the last version',T)
m('Files','filter_files','(if known then rest else (f, content) :: rest, hs2)','(if known then rest else (f, content) :: rest, hs1)','C06: hashes of all files are remembered',T)
m('Files','check_hash','| None => (false, <[name := d]> hs)','| None => (true, <[name := d]> hs)','C06: a new file is sent',T)
N_='PropNames'
m('Names','snake','if is_upper x then underscore :: x :: snake s\'','if is_upper x then x :: snake s\'','C28: the alternative name of CamelCase is UPPER_CASE',N_)
m('Names','camel_tail','if (c =? underscore)%N then camel_tail true s\'','if (c =? underscore)%N then camel_tail false s\'','C28: words are separated by capitals',N_)
m('Names','first_letter_caps','Ok (if internal then None else Some true)\n                     end','Ok (Some true)\n                     end','C28: an undetermined superclass does not decide',N_)
m('Names','camel_local','(if caps then up1 c else low1 c)','up1 c','C28: attributes and relationships start with a small letter',N_)
NS='PropNamespace PropSerial'
m('Namespace','ns_of_iri','hd [] (split_on hash iri) ++ [hash]','hd [] (split_on hash iri)','C29: the IRI of an entity is namespace plus name',NS)
m('Namespace','first_kind','if str_eqb s iri && existsb (kind_eqb k) allow','if existsb (kind_eqb k) allow','C29: the kind is that of the entity',NS)
m('Namespace','from_iri','| Some k => Ok (Ent k ns_iri n (after ns_iri iri))','| Some k => Ok (Ent k ns_iri n n)','C29: lookup by label gives the entity with that label',NS)
m('Namespace','labelled','str_eqb l label && ostr_eqb g lang && startswith (n_iri n) s','str_eqb l label && ostr_eqb g lang','C29: only entities of the namespace are found',NS)
m('Namespace','get_with','Relationship => Ok (InverseOf e) | _ => Err AttributeError end\n        | Ok (InverseOf e)','Relationship => Ok (Found e) | _ => Err AttributeError end\n        | Ok (InverseOf e)','C29: INVERSE_OF_ gives the inverse',NS)
m('Namespace','store_namespaces','fst nb ++ [tab] ++ snd nb ++ [newline]','fst nb ++ [tab] ++ snd nb','C29: bindings are read back',NS)
m('Namespace','load_lines','load_lines ls\' (ns_bind name iri st)','load_lines ls\' (ns_bind iri name st)','C29: bindings are read back',NS)
m('Namespace','get_ns','match assoc (lower name) (r_dict r) with','match assoc name (r_dict r) with','C29: namespaces are found in any case',NS)
m('Namespace','free_prefix','free_prefix fuel\' p iri (N.succ n) b','free_prefix fuel\' p iri n b','C29: a used prefix gets a number',NS)
V='PropValidator'
m('Validator','name_re','Seq letter (Star (Alts [letter; digit; chr 95]))','Star (Alts [letter; digit; chr 95])','C46: names start with a letter',V)
m('Validator','validate_format','| None => if (req : bool) then Err ValueError else Ok tt','| None => Ok tt','C46: missing mandatory keys are refused',V)
m('Validator','validate_format','if existsb (fun \'(_, k\', _) => str_eqb s k\') fs then Ok tt else Err ValueError','Ok tt','C46: unknown keys are refused',V)
m('Validator','validate_format','if n =? List.length l then Err ValueError','if 0 <? n then Err ValueError','C46: one matching alternative suffices',V)
m('Validator','deriv','| Star a => Seq (deriv c a) (Star a)','| Star a => deriv c a','C46: regular expressions',V)
m('Validator','version_re','(Opt (Seq (chr 46) (Plus digit)))','(Seq (chr 46) (Plus digit))','C46: versions with two numbers are accepted',V)
m('Validator','validate','match validate fuel (YS k) kp with Ok _ => validate fuel x vp | Err e => Err e end','validate fuel x vp','C46: keys are checked',V)
S='PropSchema'
m('Schema','check_card','(m <? Z.of_nat n)%Z','(m <=? Z.of_nat n)%Z','C45: the maximum is allowed',S)
m('Schema','check_card','(Z.of_nat n <? mn)%Z ||','','C45: the minimum is checked',S)
m('Schema','interpret','Ok mn => Ok (mn, None)','Ok mn => Ok (mn, Some mn)','C45: "n+" has no upper bound',S)
m('Schema','subtrees','(0 <? snd x)%Z','(0 <=? snd x)%Z','C45: optional subtrees may be missing',S)
m('Schema','group','match group fuel w k (sset (cls w k) [k] g) with','match group fuel w k g with','C45: all classes in the tree are seen',S)
SE='PropSerial'
m('Serial','serializable','rmap (pair (fst kv)) (serializable (snd kv))) l)\n  | VSeq','rmap (pair KNone) (serializable (snd kv))) l)\n  | VSeq','C07: dictionary keys are kept',SE)
m('Serial','deserialize','| JNone => Ok VNone','| JNone => Ok (VSeq SList [])','C07: None is kept',SE)
m('Serial','json_dict','dset (fst kv) (snd kv) d','d ++ [(fst kv, snd kv)]','C07: (duplicate keys)',SE)
m('Serial','split_graph','(filter (fun t => negb (term_eqb (t_s t) s)) g))','[])','C07: neighbour types are kept',SE)
m('Serial','split_graph','find (fun t => negb (term_eqb (t_p t) rdf_type)) g','find (fun t => term_eqb (t_p t) rdf_type) g','C07: the subject of the object is found',SE)
m('Serial','to_uuid','(z <? 2 ^ 128)%Z','(z <? 2 ^ 64)%Z','C07: uids',SE)
m('Serial','deserialize','| Some x => to_uuid x','| Some x => to_entity r x','C07: uids are told from entities',SE)
B='PropBuffers'
m('Buffers','create_from_triples','set_wgr w1 (filter (fun t => fst t <> v) (wgr w1))','w1','C08/C25: old triples are replaced',B)
m('Buffers','create_from_triples','set_wgr w2 (wgr w2 ∪ e_own e ∪ e_nb e)','set_wgr w2 (wgr w2 ∪ e_own e)','C25: neighbour types are kept',B)
m('Buffers','deserialize_body','m_add m ++ m_upd m ++ m_del m','m_add m ++ m_del m','C25: updated objects arrive',B)
m('Buffers','deserialize_body','foldl notify_delete w1 (e_uid <$> m_del m)','w1','C25: deletions are recorded',B)
m('Buffers','deserialize_body','(foldl forget w2 (e_uid <$> m_del m), None)','(w2, None)','C25: deleted objects are gone',B)
m('Buffers','serialize_buffers','(reset w c,','(w,','C25: changes are sent once',B)
m('Buffers','serialize_buffers','(expd w)).','∅).','C25: expired objects are announced',B)
m('Buffers','run_command','match deserialize_buffers isW USER m w with','match deserialize_buffers isW ENGINE m w with','C25: the client\'s changes count as the user\'s',B)
json.dump(M,open('/tmp/w/muts2.json','w'))
print(len(M))
