import json
M=[]
def m(f,d,o,n,c): 
    s=open('/verif/rocq/theories/%s.v'%f).read()
    if s.count(o)<1: print('NOT FOUND',d,o[:60])
    M.append(dict(file=f,**{'def':d},old=o,new=n,claim=c))
F='Wrapper'
m(F,'w_store',"else Bufs (badd b ∪ {[u]}) (bupd b) (bdel b ∖ {[u]})","else Bufs (badd b) (bupd b ∪ {[u]}) (bdel b ∖ {[u]})","new objects go to the added buffer")
m(F,'w_store',"Bufs (badd b ∪ {[u]}) (bupd b) (bdel b ∖ {[u]})","Bufs (badd b ∪ {[u]}) (bupd b) (bdel b)","a stored object is not in the deleted buffer")
m(F,'store_checks',"bool_decide (rt <> None /\\ rt <> Some u) then Some RuntimeError","bool_decide (rt = Some u) then Some RuntimeError","only one wrapper per session")
m(F,'load_missing',"if old && bool_decide (new = None) && bool_decide (u ∈ wreg w2) then","if old && bool_decide (new <> None) && bool_decide (u ∈ wreg w2) then","objects gone from the backend are removed from the session")
m(F,'load_missing',"((new_links ∖ old_links) ∪ (old_links ∖ new_links)) ∖ list_to_set us","(new_links ∖ old_links) ∖ list_to_set us","removed neighbours are expired as well")
m(F,'load_next',"if decide (u ∈ missing) then load_missing isW us u w\n  else","if decide (u ∉ missing) then load_missing isW us u w\n  else","expired objects are loaded from the backend")
m(F,'load_prelude',"set_expd w (expd w ∖ (list_to_set us ∩ expd w))","w","loaded objects are not expired any more (equivalent if load_iri clears it)")
m(F,'wload',"| None => (w, Err RuntimeError)\n  | Some _ => load_loop","| None => (w, Ok [])\n  | Some _ => load_loop","loading needs a root")
m(F,'refresh',"wload isW w1 (elements ids)","wload isW w (elements ids)","refresh expires first")
m(F,'w_link',"add_direct (gr s) a r b)) w a.","add_direct (gr s) a r b)) w b.","the update is recorded for the object changed")
m(F,'w_unlink',"remove_direct (gr s) a r b)","remove_direct (gr s) b r a)","the right link is removed")
m(F,'w_add',"match w_link isW w1 b (o_inv O r) a with","match w_link isW w1 b r a with","the inverse is added")
m(F,'w_add',"linked (wgr w0) a r b then (w0, Err ValueError)","linked (wgr w0) b r a then (w0, Err ValueError)","adding twice is an error")
m(F,'w_get_',"| _ :: _, Some _ => (w, Err TypeError)\n","","uids and oclass together are refused")
m(F,'w_remove_rels',"| Some v => match w_unlink isW w1 v (o_inv O r) a with","| Some v => match w_unlink isW w1 v r a with","the inverse is removed")
m(F,'w_remove',"| (w1, Ok (_, [])) => (w1, Some RuntimeError)","| (w1, Ok (_, [])) => (w1, None)","removing nothing is an error")
m(F,'w_delete',"| (w2, None) => w_delete_triples w2 u","| (w2, None) => (w2, None)","a deleted object leaves the session")
m(F,'first_level',"∖ {[0%N]}) ∪ {[r]}","∖ {[0%N]}) ∖ {[r]}","the root is loaded first")
m(F,'w_create',"| Some _ => (w1, None)\n           | None => in_engine (load_iris isW order) w1","| None => (w1, None)\n           | Some _ => in_engine (load_iris isW order) w1","the first level is loaded with the root")
m(F,'run_act',"| DAdd ts => d ∪ ts","| DAdd ts => ts","adding keeps what is stored")
m(F,'run_act',"filter (fun t => fst t <> u) d\n","filter (fun t => fst t = u) d\n","removing a subject keeps the others")
m(F,'out_triples',"map_graph (sub_root r) (triples_of g u)","triples_of g u","the root is stored under the zero uid")
m(F,'wstep',"| WExpireAll => expire_all w","| WExpireAll => w","expire_all expires")
m(F,'sub_zero',"if decide (x = 0%N) then r else x","x","the zero uid is the root when loading")
json.dump(M[0::2],open('/tmp/w/muts19.json','w')); json.dump(M[1::2],open('/tmp/w/muts20.json','w')); print(len(M))
