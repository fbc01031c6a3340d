import json
old=json.load(open('/tmp/w/muts10.json'))
L=[old[i] for i in (5,6,7,8)]
P='theories/PropSqlText.vo theories/PropSqlStore.vo'
m=dict(old[37]); m['old']='None => [] | Some x => snd (get_condition_pattern x (lit "cond"))'; m['new']='None => [] | Some x => snd (get_condition_pattern x (lit "c"))'; L.append(m)
def a(f,d,o,n,c,t='theories/PropSqlStore.vo'): L.append(dict(file=f,**{'def':d},old=o,new=n,claim=c,targets=t,iters=14,timeout=1200))
T='SqlText'; S='SqlStore'
a(T,'to_sqlite_datatype','lit "integer") then Ok (lit "INTEGER")','lit "integer") then Ok (lit "REAL")','C68: integers in a REAL column',P)
a(T,'to_sqlite_datatype','lit "integer") then Ok (lit "INTEGER")','lit "integer") then Ok (lit "TEXT")','C68: integers in a TEXT column',P)
a(T,'to_sqlite_datatype','lit "float") then Ok (lit "REAL")','lit "float") then Ok (lit "INTEGER")','C68: floats in an INTEGER column',P)
a(T,'to_sqlite_datatype','lit "float") then Ok (lit "REAL")','lit "float") then Ok (lit "TEXT")','C68: floats in a TEXT column',P)
a(T,'to_sqlite_datatype','lit "boolean") then Ok (lit "BOOLEAN")','lit "boolean") then Ok (lit "TEXT")','C68: booleans in a TEXT column (bool of a text is True)',P)
a(T,'to_sqlite_datatype','d (lit "UUID") then Ok (lit "TEXT")','d (lit "UUID") then Ok (lit "INTEGER")','C68: uids that look like numbers are changed',P)
a(T,'to_sqlite_datatype','startswith STR_PREFIX d then Ok (lit "TEXT")','startswith STR_PREFIX d then Ok (lit "REAL")','C68: sized strings that look like numbers are changed',P)
a(T,'to_sqlite_datatype','None => Ok (lit "TEXT")','None => Ok (lit "NUMERIC")','C68: values without datatype that look like numbers are changed',P)
a(T,'to_sqlite_datatype','startswith STR_PREFIX d then Ok (lit "TEXT")','startswith STR_PREFIX d then Err NotImplementedError','C68: sized strings cannot be stored',P)
a(S,'bind_value','PBool b => Ok (SInt (if b then 1 else 0))','PBool b => Ok (SInt (if b then 0 else 1))','C68: booleans inverted')
a(S,'bind_value','(z <? 2 ^ 63)','(z <? 2 ^ 31)','C68: only 32-bit integers')
a(S,'bind_value','(- 2 ^ 63 <=? z)','(- 2 ^ 63 <? z)','C68: smallest integer cannot be stored')
a(S,'bind_value','PFloat f => Ok (if is_nan f then SNull else SReal f)','PFloat f => Ok (SInt (truncate f))','C68: floats are truncated')
a(S,'bind_value','PStr s => Ok (SText s)','PStr s => Ok (match s with [] => SNull | _ => SText s end)','C68: the empty string becomes NULL')
a(S,'fetch','SInt z => PInt z','SInt z => PStr (decZ z)','C68: integers come back as text (but are converted): booleans wrong')
a(S,'conv','BOOL, PInt z => Ok (PBool (negb (z =? 0)%Z))','BOOL, PInt z => Ok (PBool (z =? 0)%Z)','C68: booleans inverted when read')
a(S,'conv','INT, PInt z => Ok v','INT, PInt z => Ok (PInt (Z.abs z))','C68: sign lost')
a(S,'conv','STRING, PStr s => Ok v','STRING, PStr s => Ok (PStr (py_strip s))','C68: strings are stripped') if False else None
a(S,'conv','STRING, PStr s => Ok v','STRING, PStr s => Ok (PStr (tl s))','C68: strings lose a character')
a(S,'conv','UUID, PStr s => Ok v','UUID, PStr s => Err ValueError','C68: uids cannot be stored')
a(S,'write','rmap (apply_affinity (affinity_of ty)) (bind_value w)','rmap (apply_affinity ANumeric) (bind_value w)','C68: every column numeric')
a(S,'write','match convert_from conv (Leaf v) dt with','match convert_from conv (Leaf PNone) dt with','C68: the value is dropped')
a(S,'read_back','convert_to conv str_of PStr (Leaf (fetch v)) dt','convert_to conv str_of PStr (Leaf (fetch v)) None','C68: read without the datatype: everything comes back as text')
a(S,'found','same_stored x (apply_affinity (affinity_of ty) p)','same_stored x p','C68: comparison without affinity (a specification error)')
a(S,'found','convert_from conv (Leaf w) dt with\n    | Ok ty, Ok x, Ok (Leaf w\') =>','convert_from conv (Leaf v) dt with\n    | Ok ty, Ok x, Ok (Leaf w\') => let _ := w in','C68: compared with the stored value itself')
json.dump(L,open('/tmp/w/muts11.json','w'),indent=1)
for m in L:
    s=open('/verif/rocq/theories/%s.v'%m['file']).read()
    if m['old'] not in s: print('NOTFOUND',m['def'],m['old'])
