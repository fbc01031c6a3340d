import json
L=[]
def m(f,d,o,n,c): L.append(dict(file=f,**{'def':d},old=o,new=n,claim=c))
m('Server','init_session','(note (put s c (SO (so_state o) true)) c CClose,\n                       close (so_state o))','(note s c CClose,\n                       None)','a re-init closes the old session, and its error is reported')
m('Server','init_session','if has_session_kwargs && has_user_args d then','if has_user_args d then','arguments refused only when the server fixes them')
m('Server','init_session','note (put s1 c (SO st\' false)) c CInit','note s1 c CInit','the new session is stored')
m('Server','init_session','construct c d with','construct 1%positive d with','the session is constructed for this connection')
m('Server','run_command','exec (so_state o) command data','exec (so_state o) data command','command and payload in order')
m('Server','run_command','note (put s c (SO st\' (so_closed o))) c (CMethod (so_state o) command)','note s c (CMethod (so_state o) command)','effects of a command are kept')
m('Server','dispatch','negb (starts_with [95%N] command)\n                  && ','','private methods cannot be called')
m('Server','dispatch','&& negb (wrapper_has command)','','methods of WrapperSession cannot be called')
m('Server','note','log s ++ [(c, k)]','(c, k) :: log s','the log is in order')
m('Server','handle_disconnect','Srv (delete c (sessions s1)) (log s1)','s1','a disconnect forgets the session')
m('QueryResult','q_pull','Q (q_elems q ++ [x]) r','Q (x :: q_elems q) r','order of elements kept')
m('QueryResult','q_pull','Q (q_elems q ++ [x]) r','Q (q_elems q) r','fetched elements are cached')
m('QueryResult','q_all','q_elems q ++ q_rest q in','q_rest q ++ q_elems q in','order of elements')
m('QueryResult','q_all','(Q es [], es)','(Q (q_elems q) [], es)','all() fills the cache')
m('QueryResult','q_contains',"bool_decide (x ∈ l)","bool_decide (x ∈ q_elems q)",'membership looks at the elements not fetched yet')
m('QueryResult','gen_next',"(q, GElems (S i), Some x)","(q, GElems i, Some x)",'an iterator advances')
m('QueryResult','pull_gen',"(q', GIter, Some x)","(q', GDone, Some x)",'an iterator goes on to the end')
m('QueryResult','q_one',"| None => if raise_empty then (q1, Err ResultEmptyError) else (q1, Ok None)","| None => if raise_empty then (q1, Ok None) else (q1, Err ResultEmptyError)",'one() raises on empty results only if asked')
m('OClass','dset',"then (k', v) :: d' else","then (k', v') :: d' else",'a dictionary entry is replaced')
m('OClass','py_or',"if truthy t then x else y","x",'a falsy default counts as none')
m('OClass','get_default',"enum (Some c, p_default, None)","enum (None, p_default, Some c)",'the default of the class')
m('OClass','restriction_datatype',"(py_or (gvalue r p_someValuesFrom) (gvalue r p_allValuesFrom), true)","(gvalue r p_someValuesFrom, true)",'allValuesFrom restrictions give a datatype')
m('OClass','restriction_datatype',"(gvalue r p_allValuesFrom), true)","(gvalue r p_allValuesFrom), false)",'restricted attributes are obligatory')
m('OClass','attributes',"merge_all [] supers","merge_all [] (take 1 supers)",'attributes of all superclasses')
m('OClass','gvalue',"enum (Some s, p, None)","enum (None, p, None)",'the value of this subject')
m('Uuid','iri_from_uid',"cuds_prefix ++ uuid_str u","cuds_prefix ++ hexfix 32 u",'canonical text of the uid')
m('Uuid','uuid_of_text',"if Nat.eqb (List.length h) 32 then","if Nat.leb (List.length h) 32 then",'text of the wrong length refused')
m('Uuid','hexval',"((97 <=? c) && (c <=? 102))%N","((97 <=? c) && (c <=? 103))%N",'g is no digit')
m('Uuid','hexdigits',"if first then None else Some acc","Some acc",'digits needed')
m('Uuid','substitute_root',"subst_triple root 0","subst_triple 0 root",'the root is replaced by zero')
m('Uuid','subst_triple',"| Ok s', Ok p', Ok o' => Ok (s', p', o')","| Ok s', Ok p', Ok o' => Ok (s', p', o)",'the object is substituted too')
m('Inverse','find_inverse',"match filter (fun o => is_bnode o = false)\n                 (map snd","match filter (fun o => True)\n                 (map snd",'a blank inverse is not taken')
m('Inverse','new_inverse',"{[ (r, p_inverseOf, mk r) ]}","{[ (mk r, p_inverseOf, mk r) ]}",'the new inverse is declared inverse of r')
m('Install','install_core',"let installed := if clear then ∅ else dom (disk st) in","let installed := dom (disk st) in",'after a removal the requirements are checked again')
m('Install','reqs',"default [] (d_req d)","[]",'requirements are honoured')
m('Install','ident',"lower (d_id d)","d_id d",'identifiers are lower case')
m('Install','stored',"Doc true (d_id d) (d_req d) (d_fmt d) 0","Doc true (d_id d) None (d_fmt d) 0",'a stored package keeps its requirements')
m('Install','parse_error',"if has_dot (d_id d) then Some ValueError\n      else ","",'names with dots are refused')
m('Install','dict_set',"(k, v) :: l else (k', v')","(k', v') :: l else (k', v')",'a package is replaced by the new file')
json.dump(L,open('muts21.json','w'))
