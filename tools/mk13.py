import json
L=[]
def a(d,o,n,c): L.append(dict(file='OntoDot',**{'def':d},old=o,new=n,claim=c))
a('get_subgraph','if negb group then (None, d)','if group then (None, d)','C70: grouping negated')
a('get_subgraph','else if bool_decide (ns ∈ o_clusters d) then (Some ns, d)','else if false then (Some ns, d)','C70: a new cluster for every entity')
a('get_subgraph','(o_clusters d ++ [ns])','(o_clusters d)','C70: clusters not kept')
a('add_edge','[DEdge x y l]','[DEdge y x l]','C70: edges reversed')
a('add_visited','(o_visited d ∪ {[e]})','(o_visited d)','C70: visited not updated')
a('add_oclass','let rows := (λ \'(k, v), RAttr k v) <$> attributes e in','let rows := (λ \'(k, v), RAttr v k) <$> attributes e in','C70: name and default swapped in the label')
a('add_oclass','let rows := (λ \'(k, v), RAttr k v) <$> attributes e in','let rows := (λ \'(k, v), RAttr k v) <$> take 1 (attributes e) in','C70: only the first attribute in the label')
a('add_oclass','(DNode g e rows (bool_decide (namespace_of e ∈ chosen)))','(DNode g e rows (negb (bool_decide (namespace_of e ∈ chosen))))','C70: filled classes negated')
a('add_oclass','(DNode g e rows (bool','(DNode None e rows (bool','C70: classes outside the clusters')
a('add_relationship','if negb (generated (inverse e)) && bool_decide','if generated (inverse e) && bool_decide','C70: only generated inverses drawn')
a('add_relationship','if negb (generated (inverse e)) && bool_decide (inverse e ∉ o_visited d) then','if bool_decide (inverse e ∉ o_visited d) then','C70: generated inverses drawn too')
a('add_relationship','&& bool_decide (inverse e ∉ o_visited d) then','then','C70: inverse edge drawn in both directions')
a('add_relationship','Some (add_edge e (inverse e) LInverse d)','Some d','C70: inverse edge dropped')
a('add_relationship','Some (add_edge e (inverse e) LInverse d)','Some (add_edge e (inverse e) LIsA d)','C70: wrong label of the inverse edge')
a('add_relationship','Some (add_edge e (inverse e) LInverse d)','Some (add_edge e e LInverse d)','C70: inverse edge to itself')
a('add_relationship','else Some d.','else Some (add_edge e (inverse e) LInverse d).','C70: inverse edge always drawn')
a('add_relationship','match rec (inverse e) d with','match rec e d with','C70: inverse not visited')
a('add_relationship','(DNode g e [] (bool_decide (namespace_of e ∈ chosen)))','(DNode g e [] true)','C70: relationships always filled')
a('add_attribute','[RDatatype (datatype e)]','[]','C70: datatype not shown')
a('add_attribute','Some (add_node (DNode g e [RDatatype (datatype e)] (bool_decide (namespace_of e ∈ chosen))) d)','let _ := (g, datatype, namespace_of) in Some d','C70: attributes not drawn')
a('add_superclasses','| [] => Some d\n      | c :: l =>\n          match rec','| [] | [_] => Some d\n      | c :: l =>\n          match rec','C70: last superclass forgotten')
a('add_superclasses','Some d => add_superclasses e l (add_edge e c LIsA d)','Some d => add_superclasses e l (add_edge c e LIsA d)','C70: is_a edges reversed')
a('add_superclasses','Some d => add_superclasses e l (add_edge e c LIsA d)','Some d => add_superclasses c l (add_edge e c LIsA d)','C70: further is_a edges start at the superclass')
a('add_superclasses','Some d => add_superclasses e l (add_edge e c LIsA d)','Some d => Some (add_edge e c LIsA d)','C70: only the first superclass')
a('add_entity','if bool_decide (e ∈ o_visited d) then Some d','if false then Some d','C70: entities drawn again (no end on cycles)')
a('add_entity','KAttr => add_attribute e g d','KAttr => add_oclass e g d','C70: attributes drawn as classes')
a('add_entity','Some d => add_superclasses (add_entity fuel) e (superclasses e) d','Some d => match kind e with KClass => add_superclasses (add_entity fuel) e (superclasses e) d | _ => Some d end','C70: superclasses of relationships and attributes not drawn')
a('add_entities','Some d => add_entities fuel l d end','Some d => match l with [] | [_] => Some d | _ => add_entities fuel l d end end','C70: last entity of a namespace forgotten')
a('add_namespaces','Some d => add_namespaces fuel l d end','Some d => let _ := l in Some d end','C70: only the first namespace')
json.dump(L,open('/tmp/w/muts13.json','w'),indent=1)
for m in L:
    s=open('/verif/rocq/theories/%s.v'%m['file']).read()
    if m['old'] not in s: print('NOTFOUND',m['def'],m['old'])
