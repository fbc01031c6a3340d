import json
T="theories/PropShared.vo"
def m(f,d,o,n,c): return dict(file=f,**{"def":d},old=o,new=n,claim=c,targets=T,iters=14,timeout=1500)
L=[
m("Shared","mstep","else fst s j, db w')","else expire_all (fst s j), db w')","C64: another session is not touched (commit expires everybody's objects)"),
m("Shared","mstep","else fst s j, db w')","else fst s j, snd s)","C64: commits reach the database"),
m("Shared","sess_of","set_db (fst s i) (snd s)","let _ := snd s in fst s i","C64: every session works on the shared triples"),
m("Wrapper","commit_acts","map (fun u => DAdd (out_triples r g u)) (elements (badd b)) ++","mjoin (map (fun u => [DRemove (sub_root r u); DAdd (out_triples r g u)]) (elements (badd b))) ++","C64: new objects are added to what is stored (first commit keeps the root)"),
m("Wrapper","commit_acts","[DRemove (sub_root r u); DAdd (out_triples r g u)]","[DAdd (out_triples r g u)]","C64: changed objects are stored exactly"),
m("Wrapper","commit_acts","map (fun u => DRemove (sub_root r u)) (elements (bdel b))","map (fun u => DRemove u) (elements (bdel b))","(equivalent for objects other than the root; C64)"),
m("Wrapper","commit_acts","(elements (bupd b)) ++","(elements (bupd b ∪ dom_all g)) ++","C64: only pending objects are written") ,
m("Wrapper","w_write","(set_core w1 (f (core w1))) u","(set_db (set_core w1 (f (core w1))) (gr (f (core w1)))) u","C64: nothing but commit writes (write-through)"),
m("Wrapper","w_commit","if decide (k < length acts) then (w, Some BackendError)","if decide (k < length acts) then (set_db w (foldl run_act (db w) (take k acts)), Some BackendError)","C64: a failed commit leaves the database (no rollback)"),
]
L[6]["new"]="(elements (bupd b ∪ set_map fst g)) ++"
json.dump(L,open('muts8.json','w'))
