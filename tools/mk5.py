import json
old=json.load(open('/tmp/w/muts4y.json'))
log=[json.loads(l) for l in open('/tmp/w/muts4y.log')]
ms=[]
fix={3:"o = LIT (len name) /\\ (let _ := text in True)",
4:"(let _ := pick c in let _ := text in i ++ name)",
5:"if decide (let _ := ltrue in True) then",
6:"else (let _ := candidate g ns name in let _ := is_subject g in true).",
7:"if str_eqb ns own then (let _ := es in true)",
24:"if (let _ := installed in true) then",
33:"(b1, p_cardinality, LIT (let _ := lone in 0)); "}
for i,m in enumerate(old):
    if i<len(log) and len(log[i]['claims_failed'])>=3: continue
    if i in(0,1): continue
    m=dict(m); m['iters']=8; m['timeout']=900
    if i in fix: m['new']=fix[i]
    ms.append(m)
def A(file,d,o,n,claim,target,**k):
    s=open(f'/verif/rocq/theories/{file}.v').read()
    assert s.count(o)>=1,(file,d,o)
    ms.append(dict(file=file,**{'def':d},old=o,new=n,claim=claim,targets=f'theories/{target}.vo',iters=6,**k))
P='PropOwl'
A('Owl','norm_iri','endswith (lit "#") i || endswith (lit "/") i','endswith (lit "#") i','C52: # is appended only when needed',P)
A('Owl','rename_term','BN i => BN (n + i)','BN i => BN i','C52: blank nodes of files are new',P)
A('Owl','bind_all','Namespace.ns_bind n (norm_iri i) st','Namespace.ns_bind n i st','C52: bound IRIs end with # or /',P)
A('Owl','bind_all','(rmap (cons (norm_iri i)) r)'.strip('()'),'rmap (cons i) r','C52: default relationship and style are recorded for the bound IRI',P)
A('Owl','add_active','if decide ((I r, p_type, owl_ObjectProperty) ∈ g)\n            then','if true\n            then','C52: active relationships must be object properties',P)
A('Owl','add_active','(I r, p_subPropertyOf, I active_rel)','(I active_rel, p_subPropertyOf, I r)','C52: active relationships are below activeRelationship',P)
A('Owl','add_active','(g, Some ValueError)','add_active rels\' g','C52: wrong active relationships are refused',P)
A('Owl','add_default','(I i, p_default_rel, I r)','(I r, p_default_rel, I i)','C52: default relationship',P)
A('Owl','add_styles','if by_label then','if negb by_label then','C52: reference style',P)
A('Owl','parse_rdf','(YS (SStr (lit "xml")))','(YS (SStr (lit "ttl")))','C52: xml is the default format',P)
A('Owl','parse_rdf','rename (p_next s) g ∪ p_graph s','rename (p_next s) g','C52: old triples are kept',P)
A('Owl','parse_rdf','(Pst g (p_next s + k), r)','(Pst g (p_next s), r)','C52: blank nodes are not reused',P)
A('Owl','parse_rdf','add_default iris (get "default_relationship" d) g2','add_default (firstn 1 iris) (get "default_relationship" d) g2','C52: each namespace gets the default relationship',P)
A('Owl','parse_owl','| Ok true => (st, (s, Err ValueError))','| Ok true => match f with YS (SStr p) => parse_rdf num ltrue pystr source d p st s | _ => (st, (s, Err ValueError)) end'.replace('num ltrue pystr source ',''),'C52: identifiers with a dot are refused',P)
A('Owl','parse_owl','if keys_ok d then parse_rdf d p st s else (st, (s, Err TypeError))','parse_rdf d p st s','C52: unknown keys are refused',P)
A('Owl','keys_ok','bool_decide (is_Some (get "namespaces" d)) &&\n  ','','C52: descriptions without namespaces change nothing',P)
A('Owl','all_keys','"format"; ','','C52: format is a known key',P)
A('Owl','get_default_rel','if decide (s = i /\\ p = p_default_rel) then','if decide (p = p_default_rel) then','C52: the default relationship of the namespace',P)
A('Owl','get_namespace_names','SStr n => Ok (lower n) | _ => Err AttributeError','SStr n => Ok n | _ => Err AttributeError','C52: the reported names are those bound',P)
A('Owl','contains_both','| Ok true => contains b y','| Ok true => Ok true','C52: kind of document',P)
A('Owl','infix','startswith p s || match','startswith p s && match','C52: dots anywhere in the identifier',P)
A('Owl','iterate','YList l => Ok l','YList l => Ok (firstn 1 l)','C52: all active relationships',P)
P='PropExport'
A('Export','receive','set_gr t (filter (fun x => fst x <> v) (gr t) ∪ e_own e ∪ e_nb e)','set_gr t (gr t ∪ e_own e ∪ e_nb e)','C60: existing objects are replaced',P)
A('Export','receive','Sess (reg t ∪ {[v]}) (gr t ∪ e_own e ∪ e_nb e)','Sess (reg t ∪ {[v]}) (gr t ∪ e_own e)','C60: classes of linked objects are known',P)
A('Export','receive','Sess (reg t ∪ {[v]}) (gr t ∪ e_own e ∪ e_nb e)','Sess (reg t) (gr t ∪ e_own e ∪ e_nb e)','C60: copies are objects of the session',P)
A('Export','receive','(match root t with Some r => Some r | None => Some v end)','(Some v)','C60: the root is kept',P)
A('Export','receive','else if decide (v = 0%N) then (t, Err ValueError)\n    ','','C60: zero uid refused',P)
A('Export','receive_all','(t1, Ok v) => let \'(t2, r) := receive_all t1 l\' in','(t1, Ok v) => let \'(t2, r) := receive_all t l\' in','C60: all objects are copied',P)
A('Export','deserialize','(t1, Ok (v :: _)) => (t1, Ok v)','(t1, Ok (v :: l)) => (t1, Ok (List.last l v))','C60: the first object is returned',P)
A('Export','deserialize','(t1, Ok (v :: _)) => (t1, Ok v)','(t1, Ok (v :: _)) => (t, Ok v)','C60: objects arrive',P)
A('Export','serialize','true md 0 u ∅','true (Some 1) 0 u ∅','C60: the whole subtree is exported',P)
A('Export','serialize','(iter_nbrs O s rf)','(iter_nbrs O s None)','C60: only the relationship is followed',P)
A('Buffers','entry_of','','','',P) if False else None
P='PropLoadClass'
A('LoadClass','class_uids','snd t = TType c','snd t <> TType c','C61: objects of the class',P)
A('LoadClass','class_uids','sub_zero r (fst t)','fst t','C61: the zero uid is the root',P)
A('LoadClass','load_each','in_engine (fun w => load_iri isW w u) w','(fun w => load_iri isW w u) w','C61: loading is not a pending change',P)
A('LoadClass','load_classes','(w2, rmap (app l) r)','(w2, r)','C61: all subclasses',P)
A('LoadClass','load_by_oclass','| None => (w, Err RuntimeError)','| None => (w, Ok [])','C61: RuntimeError without root',P)
A('LoadClass','load_classes','load_each isW (ord (class_uids r (db w) c)) w','load_each isW (firstn 1 (ord (class_uids r (db w) c))) w','C61: all objects of a class',P)
P='PropFullGraph'
A('WrapperFind','w_subs','if decide (x ∈ visited) then','if decide (x ∉ visited) then','C62: search',P)
A('WrapperFind','w_subs','w_subs rec missing us subs\' v2 (output ++ l) w2','w_subs rec missing us subs\' v2 l w2','C62: all matching objects are returned',P)
A('WrapperFind','w_subs','w_subs rec missing us subs\' v2 (output ++ l) w2','w_subs rec missing us subs\' visited (output ++ l) w2','C62: objects are returned once',P)
A('WrapperFind','w_find','let output := if crit root then [root] else [] in','let output := [root] in','C62: only matching objects',P)
A('WrapperFind','w_find','(list_to_set (missing_uids w1 us))','∅','C62: children are loaded',P)
A('WrapperFind','w_subs','in_engine (load_next isW missing us u) w','load_next isW missing us u w','C62: loading leaves no pending change',P)
A('WrapperFind','full_graph','(Some (o_relationship O))','(Some (o_active O))','C62: all relationships are followed',P)
A('WrapperFind','full_graph','Some (w\', Ok (wgr w\'))','Some (w\', Ok (wgr w))','C62: the graph has what was loaded',P)
A('FullGraph','custom_datatypes','in_cuba s = true','in_cuba s = false','C62: datatypes of CUBA',P)
A('FullGraph','custom_triples','set_map (fun d => (d, p_type, rdfs_Datatype)) (custom_datatypes g) ∪\n    ','','C62: declarations are left out',P)
A('FullGraph','custom_triples','(None, p_range, Some d)','(Some d, p_range, None)','C62: ranges are left out',P)
A('FullGraph','rdf_graph','if skip then','if negb skip then','C62: skip',P)
P='PropPrint'
s=open('/verif/rocq/theories/Print.v').read()
json.dump(ms,open('/tmp/w/muts5.json','w'))
print(len(ms))
