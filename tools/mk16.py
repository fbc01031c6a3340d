import json
M=[]
def m(f,d,o,n,c): 
    s=open('/verif/rocq/theories/%s.v'%f).read()
    if s.count(o)<1: print('NOT FOUND',d,o[:60])
    M.append(dict(file=f,**{'def':d},old=o,new=n,claim=c))
F='Registry'
m(F,'reg_iter',"match n with [] => false | _ => true end","match n with [] => true | _ => true end","iteration leaves out the namespace without a name")
m(F,'reg_iter',"(map fst (r_dict r))).","(map fst (tl (r_dict r)))).","iteration yields every namespace (first one dropped)")
m(F,'reg_iter',"filter (fun n => match n with [] => false | _ => true end) (map fst (r_dict r))","filter (fun n => match n with [] => false | _ => true end) (map fst (r_dict r ++ r_dict r))","iteration yields every namespace once")
m(F,'reg_attr',"| Err KeyError => Err AttributeError\n  | x => x\n  end.\n\n(** namespace_registry.py:62","| x => x\n  end.\n\n(** namespace_registry.py:62","attribute access raises AttributeError")
m(F,'reg_contains',"str_eqb (lower name)","str_eqb name","`in` ignores case")
m(F,'reg_contains',"map fst (r_dict r)","map snd (r_dict r)","`in` looks at names, not IRIs")
m(F,'reg_get',"| Err KeyError => Ok fallback\n","| Err KeyError => Ok None\n","get returns the given fallback")
m(F,'reg_get',"| Ok n => Ok (Some n)","| Ok n => Ok fallback","get returns the namespace")
m(F,'set_module',"dset (lower (n_name n)) n (dset (upper (n_name n)) n m)","dset (lower (n_name n)) n m","modules get the upper-case name")
m(F,'set_module',"dset (lower (n_name n)) n (dset (upper (n_name n)) n m)","dset (upper (n_name n)) n m","modules get the lower-case name")
m(F,'update_module',"(r', set_module m l)","(r', set_module [] l)","other attributes of the module are kept")
m(F,'update_module',"(reg_iter r')","(reg_iter r)","the module gets the namespaces after the update")
m(F,'ns_eqb',"str_eqb (n_name a) (n_name b) && str_eqb (n_iri a) (n_iri b)","str_eqb (n_iri a) (n_iri b)","equality compares the names")
m(F,'ns_contains',"| Ok _ => Ok true\n  | Err e => Err e","| Ok _ => Ok true\n  | Err _ => Ok false","`in` raises for unknown names")
m(F,'default_rels',"str_eqb s (n_iri n) && str_eqb p p_default_rel","str_eqb p p_default_rel","the default relationship is that of this namespace")
m(F,'default_rels',"str_eqb s (n_iri n) && str_eqb p p_default_rel","str_eqb s (n_iri n)","only the triples with the default_rel predicate count")
m(F,'default_loop',"| Err x => (Err x, cur)","| Err x => default_loop r l' cur","an undeclared default relationship is a KeyError")
m(F,'get_default_rel',"| Some d => (Ok d, cache)","| Some d => let '(x, c) := default_loop r (default_rels r n) None in (x, Some c)","the answer is cached")
m(F,'get_default_rel',"in (x, Some c)\n  end.","in (x, None)\n  end.","the answer is cached (cache never set)")
json.dump(M,open('/tmp/w/muts16.json','w')); print(len(M))
