import json
M=[]
def m(d,old,new,claim,**k): M.append(dict(file='Remote',**{'def':d},old=old,new=new,claim=claim,targets='theories/PropRemote.vo',iters=12,timeout=1200,**k))
m('receive_body',"m_del m ++ omap id l)","m_del m)","C63: what the server answers is stored in the client")
m('r_missing',"let g1 := Some (tail l) in","let g1 := Some l in","C63: load answers position by position")
m('r_missing',"if old && bool_decide (new = None) && bool_decide (u ∈ wreg w2) then","if bool_decide (new <> None) && bool_decide (u ∈ wreg w2) then","C63: only objects the server no longer has are dropped")
m('r_next',"if decide (u ∈ miss) then r_missing expired miss us u g s","if decide (u ∈ miss) then (s, (g, Ok None))","C63: missing objects are requested")
m('r_load',"(missing_uids w us) us us None","us us us None","C63: only missing or expired objects are requested; pending changes are kept")
m('r_load',"| None => (s, Err RuntimeError)\n    | Some _ => r_loop (list_to_set us ∩ expd w) (missing_uids w us)","| None => (s, Err RuntimeError)\n    | Some _ => r_loop (list_to_set us ∩ expd w) (filter (fun u => u ∉ wreg w) us)","(possibly equivalent) expired objects are requested again")
m('r_write',"let '(w2, e) := notify_update (set_core w1 (f (core w1))) u in ((w2, p1), e)","((set_core w1 (f (core w1)), p1), None)","C63: changes are buffered for commit")
m('r_write',"let '(w2, e) := notify_update (set_core w1 (f (core w1))) u in","let '(w2, e) := notify_update w1 u in","C63: writes take effect")
m('r_write',"match r_notify_read s u with\n    | (s1, Some e) => (s1, Some e)\n    | ((w1, p1), None) =>\n        if","match (s, None : option exn) with\n    | (s1, Some e) => (s1, Some e)\n    | ((w1, p1), None) =>\n        if","C63: an expired object is read again before it is written")
m('r_add',"match r_link s1 b (o_inv O r) a with","match r_link s1 b r a with","C63: the inverse link is added")
m('r_add',"if bool_decide (a ∈ wreg (fst s0)) && linked (wgr (fst s0)) a r b then (s0, Err ValueError)","if bool_decide (a ∉ wreg (fst s0)) && linked (wgr (fst s0)) a r b then (s0, Err ValueError)","C63: adding twice raises")
m('r_get_',"| _ :: _, Some _ => (s, Err TypeError)","| _ :: _, Some _ => (s, Err ValueError)","C63: same exceptions")
m('r_get',"let l := load_back us loaded in","let l := loaded in","C63: positions of objects that are not connected are None")
m('r_remove_rels',"| Some v => match r_unlink s1 v (o_inv O r) a with","| Some v => match r_unlink s1 v r a with","C63: the inverse link is removed")
m('r_remove_all',"match r_remove_rels s1 a b nb (elements rs) with","match r_remove_rels s1 a b nb (take 1 (elements rs)) with","C63: all matching links are removed")
m('r_remove',"| (s1, Ok (_, [])) => (s1, Some RuntimeError)","| (s1, Ok (_, [])) => (s1, None)","C63: removing nothing raises")
m('r_delete',"match r_remove s1 u [] (Some (o_relationship O)) None with\n        | (s2, Some e) => (s2, Some e)","match (s1, None : option exn) with\n        | (s2, Some e) => (s2, Some e)","C63: a deleted object is unlinked first")
m('r_commit',"(order (bdel (ub w))) w USER in","[] w USER in","C63: deletions are committed")
m('r_commit',"(order (bupd (ub w)))\n","[]\n","C63: updates are committed")
m('r_commit',"serialize_buffers dc (order (badd (ub w))) (order (bupd (ub w)))\n                      (order (bdel (ub w))) w USER in","serialize_buffers dc (order (bupd (ub w))) (order (badd (ub w)))\n                      (order (bdel (ub w))) w USER in","(equivalent?) added and updated objects swapped in the message")
m('r_commit',"match run_command isW (w_commit None) dc order m p with","match run_command isW (fun p => (p, None)) dc order m p with","C63: commit reaches the backend")
m('serve_init',"match in_engine (load_iris isW first) (fst","match in_engine (load_iris isW (take 0 first)) (fst","C63: connecting shows the backend's content")
m('serve_init',"(wgr p1 ∪ e_own e ∪ e_nb e) in","(wgr p1 ∪ e_nb e) in","C63: the server stores the new root")
m('r_connect',"((set_db (set_cur_buf w2 (Bufs (badd b ∖ {[u]}) (bupd b) (bdel b)))","((set_db (set_cur_buf w2 (Bufs (badd b ∪ {[u]}) (bupd b) (bdel b)))","C63: nothing is pending in the client after connecting")
m('r_connect',"match deserialize_buffers isW ENGINE m w1 with","match deserialize_buffers isW USER m w1 with","C63: what the server sends is not pending in the client")
m('request_load',"match in_engine (receive_body m l) w with","match receive_body m l w with","C63: what the server sends is not pending in the client (contexts)")
m('serve_load',"(p2, Ok (m, map (option_map (entry_of (wgr p1))) l))","(p2, Ok (m, map (option_map (fun u => Entry u (triples_of (wgr p1) u) ∅)) l))","C63: neighbours' types are sent with an object")
json.dump(M,open('muts7.json','w'))
src=open('/verif/rocq/theories/Remote.v').read()
for x in M:
    if src.count(x['old'])!=1: print(src.count(x['old']),x['def'],x['old'][:60])
