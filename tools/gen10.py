import json
M=[]
def m(file,d,old,new,claim,targets): M.append(dict(file=file,**{'def':d},old=old,new=new,claim=claim,targets=targets,iters=14,timeout=1200))
T='theories/PropWrapDev.vo'
W='WrapDev'
m(W,'mode_skips','| MActive => negb (o_sub O r (o_active O))','| MActive => negb (o_sub O (o_active O) r)','C66: swapped subrelationship test',T)
m(W,'mode_skips','| MNonActive => o_sub O r (o_active O)','| MNonActive => negb (o_sub O r (o_active O))','C66: inverted filter for non-active',T)
m(W,'get_neighbor_diff','(filter (fun v => v ∉ match','(filter (fun v => v ∈ match','C66: intersection instead of difference',T)
m(W,'get_neighbor_diff','Some (g2, u2) => targets g2 u2 r | None','Some (g2, u2) => targets g1 u2 r | None','C66: looks up the second object in the first graph',T)
m(W,'get_neighbor_diff','(targets g1 u1 r)))\n          (rels_of g1 u1)','(targets g1 u1 r)))\n          (match x2 with Some (g2, u2) => rels_of g2 u2 | None => rels_of g1 u1 end)','C66: iterates over relationships of the second object',T)
m(W,'rels_between','linked g a r b = true','linked g b r a = true','C66: links in the wrong direction',T)
m(W,'tell_neighbors','set_neighbor g b (o_inv O r) u [c]','set_neighbor g b r u [c]','C66: neighbour told under the relationship instead of the inverse',T)
m(W,'tell_neighbors',"| None :: _ => (g, Some AttributeError)","| None :: bs' => tell_neighbors g u c bs'",'C66: missing neighbour skipped',T)
m(W,'change_oclass','if decide (head (classes (gr s) u) = Some c) then (gr s, None)','if decide (c ∈ classes (gr s) u) then (gr s, None)','C66: (equivalent for objects with one class)',T)
m(W,'change_oclass','(filter (fun t => fst t <> u) g1 ∪ {[ (u, TType c) ]})','(g1 ∪ {[ (u, TType c) ]})','C66: old class and attributes kept',T)
m(W,'change_oclass','(filter (fun t => fst t <> u) g1 ∪ {[ (u, TType c) ]})','(filter (fun t => fst t <> u) g1)','C66: new class not stored',T)
m(W,'change_oclass','| Err e => (set_gr s g1, Some e)\n        | Ok attrs => (set_attrs (set_gr s (filter','| Err e => (set_gr s (filter (fun t => fst t <> u) g1), Some e)\n        | Ok attrs => (set_attrs (set_gr s (filter','C66: object wiped although the attributes are rejected',T)
m(W,'set_attrs','set_attr s u (fst al) (snd al)','set_attr s u (fst al) (snd (hd al attrs))','C66: value of the first attribute everywhere',T)
m(W,'drop_links','else drop_links (set_gr s (clear_rel (gr s) u r)) u fix_neighbors rels\'','else drop_links s u fix_neighbors rels\'','C66: links not removed without fix_neighbors',T)
m(W,'drop_links','if fix_neighbors then\n          match remove O','if negb fix_neighbors then\n          match remove O','C66: inverted fix_neighbors',T)
m(W,'drop_links',"| (s1, None) => drop_links s1 u fix_neighbors rels'","| (s1, None) => (s1, None)",'C66: stops after the first relationship',T)
m(W,'create_recycle','if decide (u ∈ reg s) then\n      match drop_links s u fix_neighbors rels with','if decide (u ∈ reg s) then\n      match (if fix_neighbors then drop_links s u fix_neighbors rels else (s, None)) with','C66: links only removed with fix_neighbors',T)
m(W,'create_recycle','| (s1, None) => change_oclass s1 u c kw\n      end\n    else','| (s1, None) => change_oclass s u c kw\n      end\n    else','C66: old links kept',T)
m(W,'create_recycle','| (s1, Some e) => (s1, Some e)\n      | (s1, None) => change_oclass s1 u c kw','| (s1, Some e) => change_oclass s1 u c kw\n      | (s1, None) => change_oclass s1 u c kw','C66: error of remove() swallowed',T)
T='theories/PropSqlText.vo'
W='SqlText'
m(W,'bq','lit "`" ++ s ++ lit "`"','s','C67: names not quoted',T)
m(W,'cond_text','bq c ++ lit "=:" ++ prefix','bq c ++ lit "=" ++ prefix','C67: parameter without colon',T)
m(W,'cond_text','lit " = " ++ bq t2 ++ lit "." ++ bq c2\n','lit " = " ++ bq t1 ++ lit "." ++ bq c2\n','C67: join condition compares one table with itself',T)
m(W,'cond_text','| _ => pattern ++ lit " AND " end','| _ => pattern ++ lit ", " end','C67: conditions joined by a comma',T)
m(W,'cond_text','go (pattern ++ cond_text y (prefix ++ dec i)) (i + 1)%N r','go (pattern ++ cond_text y (prefix ++ dec i)) i r','C67: parameters not numbered',T)
m(W,'cond_text','| CAnd [] => lit "1"','| CAnd [] => lit ""','C67: empty conjunction gives no text',T)
m(W,'alias_or','match alias with None | Some [] => table_name','match alias with None => table_name | Some [] => []','C67: empty alias used',T)
m(W,'q_columns','map (fun c => (a, c)) cs','map (fun c => (c, a)) cs','C67: swapped alias and column',T)
m(W,'q_join','then Err ValueError\n    else Ok','then Ok q\n    else Ok','C67: second table with the same alias ignored',T)
m(W,'q_join','Ok (Query (q_parts q ++ [(a, table_name, columns)]) (q_cond q))','Ok (Query (q_parts q ++ [(a, table_name, columns)]) None)','C67: join drops the condition',T)
m(W,'q_join','(q_parts q ++ [(a, table_name, columns)])','(q_parts q ++ [(table_name, table_name, columns)])','C67: join ignores the alias',T)
m(W,'q_where','| None => c\n          | Some (CAnd l)','| None => CAnd []\n          | Some (CAnd l)','C67: first condition dropped',T)
m(W,'q_where',"| CAnd l' => CAnd (as_set (l ++ l'))","| CAnd l' => CAnd (as_set l')",'C67: earlier conjunction replaced',T)
m(W,'q_where',"| CAnd l' => CAnd (as_set (l' ++ [c0]))","| CAnd l' => CAnd (as_set l')",'C67: earlier condition dropped',T)
m(W,'q_where',"| _ => CAnd (as_set [c0; c])","| _ => CAnd (as_set [c; c])",'C67: earlier comparison dropped',T)
m(W,'db_select','bq t ++ lit " AS " ++ bq a)','bq a ++ lit " AS " ++ bq t)','C67: table and alias swapped',T)
m(W,'db_select','++ lit " FROM "\n','++ lit " FROM"\n','C67: missing blank (harmless before a backquote)',T)
m(W,'db_select','condition_text (q_cond q) ++ lit ";",\n     condition_params','lit "1;",\n     condition_params','C67: condition not sent',T)
m(W,'condition_params','| None => [] | Some x => snd (get_condition_pattern x (lit "cond"))','| None => [] | Some x => snd (get_condition_pattern x (lit "c"))','C67: parameters under other names',T)
m(W,'to_sqlite_datatype','(XSD ++ lit "integer") then Ok (lit "INTEGER")','(XSD ++ lit "integer") then Ok (lit "`")','C67: type name breaks the quoting',T)
m(W,'db_create','lit "CREATE TABLE IF NOT EXISTS "','lit "CREATE TABLE "','C67: creation fails if the table exists',T)
m(W,'db_create','(columns ++ constraints) ++ lit ");")','(constraints ++ columns) ++ lit ");")','C67: (equivalent for the fragment of the grammar; SQLite requires columns first)',T)
m(W,'db_create','| [] => []\n         | _ => [lit "PRIMARY KEY("','| _ => [lit "PRIMARY KEY("','C67: empty primary key clause',T)
m(W,'db_create','++ lit " ON " ++ bq table_name','++ lit " ON " ++ bq (join_with (lit "_") index)','C67: index on the wrong table',T)
m(W,'db_create','bq c ++ lit " " ++ bq ty)','bq ty ++ lit " " ++ bq c)','C67: column and type swapped',T)
m(W,'db_insert','join_with (lit ", ") (map bq columns)','join_with (lit ", ") (map bq (rev columns))','C67: columns reversed',T)
m(W,'db_insert','(fun n => lit ":" ++ n) names) ++ lit ");"','(fun n => n) names) ++ lit ");"','C67: bare names instead of parameters',T)
m(W,'db_update','(combine columns names)','(combine columns (rev names))','C67: values in the wrong columns',T)
m(W,'db_update','vals ++ condition_params condition','condition_params condition','C67: values not bound',T)
m(W,'db_update','lit " WHERE " ++ condition_text condition ++ lit ";",\n     vals','lit ";",\n     vals','C67: update without condition',T)
m(W,'db_delete','condition_text condition ++ lit ";"','condition_text None ++ lit ";"','C67: delete ignores the condition',T)
m(W,'db_drop','lit "DROP TABLE IF EXISTS "','lit "DELETE FROM "','C67: drop only empties',T)
m('SqlUtil','get_condition_pattern','(prefix ++ lit "_value", v)','(prefix ++ lit "_val", v)','C36/C67: parameter bound under another name','theories/PropSqlUtil.vo theories/PropSqlText.vo')
m('SqlUtil','sql_list_pattern','(map name (range (List.length vals)),','(map name (rev (range (List.length vals))),','C36/C67: placeholders reversed','theories/PropSqlUtil.vo theories/PropSqlText.vo')
json.dump(M,open('muts10.json','w'))
