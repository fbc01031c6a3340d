import json
M=[]
def m(f,d,o,n,c): 
    s=open('/verif/rocq/theories/%s.v'%f).read()
    if s.count(o)<1: print('NOT FOUND',d,o[:60])
    M.append(dict(file=f,**{'def':d},old=o,new=n,claim=c))
# Install
m('Install','new_packages','rmap ord (skip_installed st packages (remove_dups packages)).','rmap ord (Ok (remove_dups packages)).','install skips packages that are already installed')
m('Install','replace_all','replace_all st ps (dict_set d i p)','replace_all st ps (d ++ [(i, p)])','install_overwrite replaces the installed version (keeps both)')
m('Install','remaining_packages','kv.1 ∉ rm','kv.1 ∈ rm','uninstall keeps the others (inverted test)')
m('Install','collect_removed','collect_removed st args (n :: acc)\n','collect_removed st args [n]\n','uninstall of several packages: only the last is removed')
m('Install','collect_removed','| None => Err ValueError\n        end\n    end.\n  Definition remaining_packages' if False else 'else Err ValueError\n','else collect_removed st args acc\n','uninstalling a package that is not installed is an error')
m('Install','by_ident','by_ident ds (dict_set acc (ident d) d)','by_ident ds (acc ++ [(ident d, d)])','one file per identifier')
m('Install','sort_loop','(result ++ add)','(add ++ result)','requirements come first (order reversed)')
m('Install','ready','forallb (fun r','existsb (fun r','all requirements have to be met before parsing')
m('Install','sort_docs','sort_loop (length files) installed files []','sort_loop (length files) ∅ files []','installed packages meet requirements')
m('Install','parse_all','parse_all (m ∪ {[ d_content d ]}) ds','parse_all m ds','the content of installed packages is loaded')
m('Install','store_all','store_all (<[ident d := stored d]> m) ds','store_all (<[d_id d := stored d]> m) ds','stored under the identifier')
m('Install','install_core','store_all (if clear then ∅ else disk st) ds','store_all (disk st) ds','uninstall removes the files')
m('Install','install_core','let m0 := if clear then {[ cuba_content ]} else mem st in','let m0 := mem st in','uninstall forgets the entities in memory')
m('Install','install_core','let installed := if clear then ∅ else dom (disk st) in','let installed := dom (disk st) in','uninstall refuses to leave requirements unmet')
m('Install','install_core','| (m, Some e) => (Inst (disk st) m, Some e)','| (m, Some e) => (Inst ∅ m, Some e)','a failing parse leaves the disk as it was')
# Namespace
m('Namespace','store_bind','Store (dset p iri (st_ns st)) (dset iri p (st_prefix st))','Store (dset p iri (st_ns st)) (st_prefix st)','bindings are kept in both directions')
m('Namespace','update_namespaces','dset (lower (fst nb)) (snd nb) d','dset (fst nb) (snd nb) d','names of namespaces are case insensitive')
m('Namespace','first_prefix','startswith i iri && negb (str_eqb n [])','startswith i iri','the empty prefix is not a namespace name')
m('Namespace','pref_label','if str_eqb s\' s then match o','if negb (str_eqb s\' s) then match o','label of this entity')
m('Namespace','namespace_from_iri','| Some _ => match get_ns r nm with Ok n => n | Err _ => Ns nm i (by_label r i) end','| Some _ => Ns nm i false','a namespace referenced by label stays so when reached from an entity')
m('Namespace','get_forced','match e_kind e with Relationship => Ok (InverseOf e) | _ => Err AttributeError end\n        | Err e => Err e\n        end\n      else Err KeyError\n  | Err e => Err e','Ok (InverseOf e)\n        | Err e => Err e\n        end\n      else Err KeyError\n  | Err e => Err e','INVERSE_OF_ only of relationships (by label)')
m('Namespace','item_one','let name := if n_by_label n then label else suffix in','let name := suffix in','entities looked up by label are named by the label')
m('Namespace','get_item','| Ok [] => Err KeyError\n','| Ok [] => Ok []\n','unknown label is a KeyError')
m('Namespace','labelled','str_eqb l label && ostr_eqb g lang && startswith','str_eqb l label && startswith','labels are matched with their language')
m('Namespace','do_get_with','if cs then Err KeyError else retry name','Err KeyError','old spelling accepted in attribute access')
m('Namespace','get_with','match do_get_with retry r n cs (after inverse_prefix name) with','match do_get_with retry r n cs name with','INVERSE_OF_x gives the inverse of x')
m('Namespace','get_case_insensitive','get_with (fun _ => Err KeyError) r n true a','get_with (fun _ => Err KeyError) r n true name','second attempt uses the converted name')
m('Namespace','iter_one','| _ => from_iri r all_kinds (n_iri n ++ suffix) None','| _ => from_iri r all_kinds suffix None','iteration gives the entities of the namespace')
m('Namespace','ns_suffixes','[Attribute; Relationship; Class].\nDefinition ns_iter' if False else '(r_graph r)) [Attribute; Relationship; Class].','(r_graph r)) [Attribute; Class].','iteration includes relationships')
m('Namespace','get_entity','| _ => Err ValueError\n  end.','| ns :: n :: _ => match get_ns r ns with Ok nsp => ns_get r nsp n | Err e => Err e end\n  | _ => Err ValueError\n  end.','a name with two dots is rejected')
m('Namespace','lines_aux','| [] => match cur with [] => [] | _ => [rev cur] end','| [] => []','last line without newline is read')
m('Namespace','load_namespaces','Ok (update_namespaces (Reg st (r_dict r) (r_graph r)))','Ok (Reg st (r_dict r) (r_graph r))','loaded namespaces can be looked up')
json.dump(M,open('muts14.json','w'),indent=1); print(len(M))
