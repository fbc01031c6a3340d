import json
M=[]
def m(f,d,o,n,c): M.append(dict(file=f,**{'def':d},old=o,new=n,claim=c))
S='Sql'
m(S,'get_ns_idx',"match find_idx (rev (s_cache s)) n with\n    | Some i => (Ok i, s)\n    | None =>\n        let db := s_db s in\n        let i := fresh (map fst (t_ns db)) in\n        let s' := load_ns","match None with\n    | Some i => (Ok i, s)\n    | None =>\n        let db := s_db s in\n        let i := fresh (map fst (t_ns db)) in\n        let s' := load_ns","a namespace that is known is not added again")
m(S,'get_ns',"| None => let s' := load_ns s in","| None => let s' := s in","unknown index: the namespaces are read again")
m(S,'get_cuds_idx',"(Ok i, Sess (SDb (t_cuds db ++ [(i, u)])","(Ok (i + 1)%N, Sess (SDb (t_cuds db ++ [(i, u)])","the index returned is the one inserted")
m(S,'get_entity_idx',"let i := fresh (map fst (t_ents db)) in","let i := fresh (map fst (t_cuds db)) in","primary key of the entities table is unused")
m(S,'determine_table',"| Some (NLit _ (Some d)) => Ok (TData d)","| Some (NLit _ (Some d)) => Ok (TData xsd_string)","data table of the literal's datatype")
m(S,'determine_table',"if decide (p = rdf_type) then Ok TTypes\n","if decide (p = rdf_type) then Ok TRels\n","rdf:type without object: types table")
m(S,'determine_table',"| Some (PAttr d) => Ok (TData (default xsd_string d))","| Some (PAttr d) => Ok (TData xsd_string)","data table of the attribute's datatype")
m(S,'insert_rels',"if decide (r ∈ l) then l else l ++ [r]) s).\n  Definition insert_data","l ++ [r]) s).\n  Definition insert_data","a relation is stored once (primary key)")
m(S,'insert_types',"upd_types (fun l => if decide (r ∈ l) then l else l ++ [r]) s","upd_types (fun l => [r]) s","other types are kept")
m(S,'insert_data',"l ++ [(si, pi, w)]","l ++ [(pi, si, w)]","columns of the data tables")
m(S,'insert_data',"else (Err NoSuchTable, s)","else (Ok (), s)","value without a table is an error")
m(S,'add1',"| NCuds u' => mbind' (get_cuds_idx u') (fun oi => insert_rels (si, pi, oi))","| NCuds u' => mbind' (get_cuds_idx u') (fun oi => insert_rels (oi, pi, si))","subject and object of a relation")
m(S,'all_tables',"TRels :: TTypes :: map","TTypes :: map","relations are in what a subject query returns")
m(S,'select_types',"bool_decide (s = ci) && bool_decide (o = ei) && holds_opt (c_s c) u && holds_opt (c_oe c) x","bool_decide (s = ci) && bool_decide (o = ei) && holds_opt (c_s c) u","condition on the class")
m(S,'select_rels',"holds_opt (c_p c) x && holds_opt (c_oc c) u'","holds_opt (c_p c) x","condition on the object")
m(S,'select_rels',"bool_decide (p = ei) && bool_decide (o = cj)","bool_decide (p = ei)","join with the object's row")
m(S,'select_data',"holds_opt (c_p c) x && holds_opt (c_ov c) o","holds_opt (c_p c) x","condition on the value")
m(S,'get_conditions',"| Some e, TTypes => ret None\n","","no condition on the predicate of types (equivalent unless rdf:type needs a namespace)")
G='Migrate'
m(G,'detect',"| [] => Ok 1","| [] => Ok 0","empty database: current version")
m(G,'detect',"if bool_decide (TMaster ∈ tables) then Ok 0\n           else if bool_decide (TV1 ∈ tables) then Ok 1","if bool_decide (TV1 ∈ tables) then Ok 1\n           else if bool_decide (TMaster ∈ tables) then Ok 0","both: the old schema")
m(G,'check_supported',"Ok v => if bool_decide (v ∈ [1])","Ok v => if bool_decide (v ∈ [0; 1])","old versions are refused")
m(G,'procedures',"else if decide (to = 1) then Ok Migrate01","else if decide (to = 1) then Ok NoMigration","0 -> 1 migrates")
m(G,'mig_cuds',"(m_ns m) (m_ents m) (m_cuds m ++ [(i, u)]))","(m_ns m) (m_ents m) (m_cuds m))","indexes are remembered")
m(G,'mig_ent',"(i, (ni, ename e))","(0, (ni, ename e))","entity inserted under its index")
m(G,'mig_rel',"if decide (t = 0) then","if decide (o = 0) then","inverse for the root")
m(G,'mig_rel',"mmbind (mig_ns (ens (inverse rel))) (fun ni => mmbind (mig_ent ni (inverse rel)) (fun p =>","mmbind (mig_ns (ens rel)) (fun ni => mmbind (mig_ent ni rel) (fun p =>","root is linked with the inverse")
m(G,'mig_triple',"(default xsd_string d) si p v","xsd_string si p v","data table of the attribute's datatype")
m(G,'mig_row',"(zip attrs (fst row))","(zip (tail attrs) (fst row))","attributes belong to their columns")
m(G,'migrate_all',"mmbind (mseq mig_rel (o_rels d)) (fun _ => mseq mig_table (o_data d))","mseq mig_table (o_data d)","relations are migrated")
m(G,'migrate_0_1',"(Err e, (Some d, v1))","(Err e, (None, v1))","failed migration keeps the old tables")
m(G,'migrate_0_1',"(Ok (), (None, if bool_decide","(Ok (), (Some d, if bool_decide","old tables are dropped")
O='Owl'
m(O,'contains',"| YS (SStr s) => Ok (infix k s)","| YS (SStr s) => Ok false","document that is a text")
m(O,'contains_both',"| Ok true => contains b y\n  | r => r","| Ok true => Ok true\n  | r => r","both keys")
m(O,'is_owl','(lit "ontology_file") (lit "identifier")','(lit "ontology_file") (lit "ontology_file")',"identifier is needed")
m(O,'keys_ok','bool_decide (is_Some (get "namespaces" d)) &&','true &&',"namespaces are needed")
m(O,'norm_iri','if endswith (lit "#") i || endswith (lit "/") i then','if endswith (lit "#") i then',"slash namespaces stay")
m(O,'rename_term',"BN (n + i)","BN i","blank nodes of a file are new")
m(O,'add_active',"(I r, p_type, owl_ObjectProperty) ∈ g","(I r, p_type, owl_ObjectProperty) ∉ g","only object properties")
m(O,'add_active',"(I r, p_subPropertyOf, I active_rel)","(I active_rel, p_subPropertyOf, I r)","direction of subPropertyOf")
m(O,'add_default',"(I i, p_default_rel, I r)","(I r, p_default_rel, I i)","namespace has the default relationship")
m(O,'add_styles',"if by_label then","if negb by_label then","reference by label only if asked")
m(O,'parse_rdf',"Pst g (p_next s + k)","Pst g (p_next s)","fresh blank nodes for the next file")
m(O,'parse_owl',"| Ok true => (st, (s, Err ValueError))","| Ok true => (st, (s, Err TypeError))","dot in the identifier: ValueError")
m(O,'parse_file',"| YS Validator.SNone => (st, (s, Err SyntaxError))","| YS Validator.SNone => (st, (s, Ok tt))","empty file is an error")
m(O,'get_identifier','lower_of "identifier"%string','lower_of "namespaces"%string',"identifier of an OWL document")
m(O,'get_namespace_names',"SStr n => Ok (lower n)","SStr n => Ok n","names in lower case")
m(O,'get_default_rel',"then Some o else acc","then match acc with None => Some o | _ => acc end else acc","last one wins")
C='Schema'
m(C,'interpret',"| NoConstraint => Ok (0%Z, None)","| NoConstraint => Ok (1%Z, None)","no constraint: any number")
m(C,'interpret',"Ok (z, Some z)","Ok (z, None)","number: exactly")
m(C,'interpret',"Ok mx => Ok (mn, Some mx)","Ok mx => Ok (mn, None)","upper bound of a range")
m(C,'check_card',"match mx with None => false | Some m => (m <? Z.of_nat n)%Z end","match mx with None => false | Some m => (m <=? Z.of_nat n)%Z end","upper bound included")
m(C,'check_card',"(Z.of_nat n <? mn)%Z ||","(Z.of_nat n <=? mn)%Z ||","lower bound included")
m(C,'subtrees',"filter (fun x => (0 <? snd x)%Z) l","filter (fun x => (1 <? snd x)%Z) l","minimum one is mandatory")
m(C,'validate_tree',"| None => Err consistency_error\n                       end","| None => Ok tt\n                       end","missing mandatory class")
m(C,'validate_tree',"forall_m (check_object w rs) (snd g)","Ok tt","cardinalities are checked")
m(C,'group',"match group fuel w k (sset (cls w k) [k] g) with","match Ok (sset (cls w k) [k] g) with","objects below the neighbours are reached")
P='Proto'
m(P,'num_blocks_of',"(n + (bsize - 1)) / bsize","(n + bsize) / bsize","number of blocks is rounded up (an extra block)")
m(P,'split_message',"slice (i * bsize) ((i + 1) * bsize) b","slice (i * bsize) (i * bsize + bsize - 1) b","no byte is lost")
m(P,'recv_n',"Ok (b ++ d, w2)","Ok (d ++ b, w2)","order of the blocks")
m(P,'basename_acc',"if (c =? 47)%N then basename_acc [] s'","if (c =? 47)%N then rev acc","last component of the path")
m(P,'receive_file',"(name, sha content) :: h","(name, sha []) :: h","hash of the content")
m(P,'receive_file',"Ok (w2, (name, content) :: d","Ok (w2, (fname, content) :: d","stored under the base name")
m(P,'name_ok',"| [46%N; 46%N] => true\n","","dot dot is no file name")
m(P,'server_decode',"if negb (version =? VERSION)%Z","if (VERSION <? version)%Z","other versions are refused")
m(P,'client_encode',"EInt (Z.of_nat (length files)); EStr command]","EInt (Z.of_nat (S (length files))); EStr command]","number of files in the header")
m(P,'server_encode',"(fun _ => emit_app (blocks, None) (fun _ => encode_files bsize files))\n  end.\n\n(** * Proofs","(fun _ => encode_files bsize files)\n  end.\n\n(** * Proofs","server sends the message")
N='Names'
m(N,'in_cuba',"|| existsb (fun p => startswith p n) cuba_dtype_prefixes","","datatypes are in the namespace")
m(N,'snake',"if is_upper x then underscore :: x :: snake s'","if is_upper x then x :: underscore :: snake s'","underscore before capitals")
m(N,'unsnake',"(if up then up1 x else low1 x)","(if up then low1 x else up1 x)","camel case")
m(N,'camel_tail',"else low1 c :: camel_tail false s'","else c :: camel_tail false s'","other letters in lower case")
m(N,'first_letter_caps',"then Ok (Some true)\n               else\n                 let rs","then Ok (Some false)\n               else\n                 let rs","entity with a class expression is a class")
m(N,'to_camel',"lower nsw ++ [dot] ++ r","nsw ++ [dot] ++ r","namespace in lower case")
for x in M:
    s=open('/verif/rocq/theories/%s.v'%x['file']).read()
    if x['old'] not in s: print('NOTFOUND',x['file'],x['def'],x['old'][:60])
A=[x for x in M if x['file'] in('Sql','Migrate')]; B=[x for x in M if x['file'] not in('Sql','Migrate')]
json.dump(A,open('muts23.json','w')); json.dump(B,open('muts24.json','w')); print(len(A),len(B))
