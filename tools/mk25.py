import json
M=[]
def a(f,d,o,n,c): 
    s=open(f'/verif/rocq/theories/{f}.v').read()
    assert s.count(o)>=1,(f,o)
    M.append(dict(file=f,**{'def':d},old=o,new=n,claim=c))
a('Owl','parse_file','| YS Validator.SNone => (st, (s, Err SyntaxError))','| YS Validator.SNone => (st, (s, Ok tt))','empty file is an error')
a('Proto','receive_file','Ok (w2, (name, content) :: d','Ok (w2, (fname, content) :: d','stored under the base name')
a('Proto','receive_files','(name, sha content) :: h','(name, sha []) :: h','hash of what was received') if '(name, sha content) :: h' in open('/verif/rocq/theories/Proto.v').read() else None
D='Dummy'
a(D,'insert','if name_le (p_name (snd x)) (p_name (snd y)) then x :: l','if negb (name_le (p_name (snd y)) (p_name (snd x))) then x :: l','persons of one name move in the order they were added')
a(D,'apply_added','p_part (snd x) && mem (fst x) (d_added s)','mem (fst x) (d_added s)','only parts of the wrapper are simulated')
a(D,'apply_added','let ps := sort (filter','let ps := (filter','persons move in the order of their names')
a(D,'simulate','snd p + k','snd p + 1','every step is a year')
a(D,'simulate','(d_i s + k)','(d_i s + 1)','one person moves in each step')
a(D,'simulate','(d_i s + k)','k','persons moved in all runs count')
a(D,'d_run','(negb (match d_added s with [] => true | _ => false end) || d_changed s)','(negb (match d_added s with [] => true | _ => false end))','changes after the start are refused')
a(D,'d_run','(if d_ran s then s else apply_added s)','(apply_added s)','persons are handed over once (equivalent: nothing is in the buffer later)')
a(D,'d_run','(map fst (d_view s1)) [] false true','(d_expired s1) [] false true','everything expires after a run')
a(D,'d_run','(map fst (d_view s1)) [] false true','(map fst (d_view s1)) (d_added s1) false true','buffers are emptied by a run')
a(D,'load_person','if p_citizen p1 then p1','if p_citizen p1 then p','citizens grow older')
a(D,'load_person','Z.of_nat idx <? d_i s','Z.of_nat idx <=? d_i s','index below i')
a(D,'load_person','Pers n a false true','Pers n a true true','who moves is no longer a part of the wrapper')
a(D,'load_person','Pers (p_name p) a (p_part p) (p_citizen p)','p','age is loaded')
a(D,'d_read','if mem u (d_expired s) then','if negb (mem u (d_expired s)) then','expired objects are loaded')
a(D,'add_person','(fst x, length (fst e))','(fst x, S (length (fst e)))','index of the person')
a(D,'d_step','(d_changed s || d_ran s) (d_ran s)','(d_changed s) (d_ran s)','changed number of steps is refused')
a('Wrapper','load_missing','let diff := set_map snd ((new_links ∖ old_links) ∪ (old_links ∖ new_links)) ∖ list_to_set us','let diff := set_map snd ((new_links ∖ old_links))  ∖ list_to_set us','former neighbours are read again')
a('Wrapper','load_missing','if old && bool_decide (Some u <> wroot w1)\n','if old\n','neighbours of the wrapper are not expired')
json.dump(M,open('muts25.json','w')); print(len(M))
