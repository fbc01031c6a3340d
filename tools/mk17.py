import json
M=[]
def m(f,d,o,n,c): 
    s=open('/verif/rocq/theories/%s.v'%f).read()
    if s.count(o)<1: print('NOT FOUND',d,o[:60])
    M.append(dict(file=f,**{'def':d},old=o,new=n,claim=c))
F='Neighbors'
m(F,'tell',"if hears then NState (n_gr s) (n_told s ++ [e]) else s","if hears then NState (n_gr s) (e :: n_told s) else s","events in order")
m(F,'target_get',"else Err KeyError)","else Ok [])","KeyError for a uid that is no neighbour")
m(F,'target_get',"if linked (n_gr s) a r v then","if linked (n_gr s) v r a then","key looked up in the right direction")
m(F,'target_get',"Ok (classes (n_gr s) v)","Ok (classes (n_gr s) a)","the classes of the neighbour, not of the object")
m(F,'add_target',"g ∪ {[ (a, TLink r v) ]} ∪ list_to_set (map (fun c => (v, TType c)) cs)","g ∪ {[ (a, TLink r v) ]}","the classes are stored")
m(F,'add_target',"g ∪ {[ (a, TLink r v) ]} ∪ list_to_set (map (fun c => (v, TType c)) cs)","g ∪ {[ (a, TLink r v) ]} ∪ list_to_set (map (fun c => (a, TType c)) cs)","the classes are stored for the neighbour")
m(F,'add_target',"g ∪ {[ (a, TLink r v) ]} ∪ list","g ∪ {[ (a, TLink r v); (v, TLink r a) ]} ∪ list","only one direction is set")
m(F,'target_set',"(tell NUpdate (edit (add_target v cs) (tell NRead s)), None)","(edit (add_target v cs) (tell NRead s), None)","update notified")
m(F,'target_set',"(tell NUpdate (edit (add_target v cs) (tell NRead s)), None)","(tell NRead (edit (add_target v cs) (tell NUpdate s)), None)","read before, update after")
m(F,'target_set',"(tell NUpdate (edit (add_target v cs) (tell NRead s)), None)","(tell NUpdate (edit (fun g => add_target v cs (filter (fun t => match t with (w, TType _) => bool_decide (w <> v) | _ => true end = true) g)) (tell NRead s)), None)","setting adds classes to the stored ones (replaced instead)")
m(F,'target_set',"| _, _ => (s, Some ValueError)\n      end.\n    (** neighbor_dict.py:51","| _, _ => (tell NRead s, Some ValueError)\n      end.\n    (** neighbor_dict.py:51","refused arguments: nothing notified")
m(F,'target_del',"fun g => g ∖ {[ (a, TLink r v) ]}","fun g => g ∖ {[ (v, TLink r a) ]}","deletes the link of the object")
m(F,'target_del',"fun g => g ∖ {[ (a, TLink r v) ]}","fun g => filter (fun t => fst t <> v) (g ∖ {[ (a, TLink r v) ]})","classes and links of the neighbour stay")
m(F,'target_iter',"targets (n_gr s) a r)","tl (targets (n_gr s) a r))","iteration yields all keys")
m(F,'target_update',"| (s', Some e) => (s', Some e)\n                        end\n      end.","| (s', Some e) => target_update l' s'\n                        end\n      end.","a bad entry raises ValueError")
m(F,'drop_rel',"bool_decide (u = a) && bool_decide (r' = r)","bool_decide (r' = r)","other objects keep their links")
m(F,'drop_rel',"bool_decide (u = a) && bool_decide (r' = r)","bool_decide (u = a)","other relationships keep their links")
m(F,'target_init',"target_update l (edit drop_rel s)","target_update l s","assignment replaces the neighbours")
m(F,'rel_set',"| (s', None) => (tell NUpdate s', None)\n                         | (s', Some e)","| (s', None) => (s', None)\n                         | (s', Some e)","final update notified")
m(F,'rel_set',"target_init r l (tell NRead s)","target_init r l s","read notified before assignment")
m(F,'rel_set',"| (s', Some e) => (s', Some e)\n                         end\n    | _, _","| (s', Some e) => (s, Some e)\n                         end\n    | _, _","a failed assignment is not undone (rolled back instead)")
m(F,'rel_del',"edit (drop_rel r)","edit (fun g => g)","deleting a relationship removes its links")
m(F,'rel_iter',"let s := tell NRead s in (s, rels_of (n_gr s) a)","(s, rels_of (n_gr s) a)","iteration notifies a read")
m(F,'rel_bool',"| (u, TLink _ _) => bool_decide (u = a)" if False else "(u, TLink _ _) => bool_decide (u = a)","(u, _) => bool_decide (u = a)","true only if there is a neighbour, not an attribute")
json.dump(M,open('/tmp/w/muts17.json','w')); print(len(M))
