import json,sys
# usage: applog.py log ; annotations in dict below
ANN={
 ("muts4a",0):("theorem gap: the accessors of the document were shared by model and specification",["C50_reading"]),
 ("muts4a",1):("theorem gap: the accessors of the document were shared by model and specification",["C50_reading"]),
 ("muts4o",19):("theorem gap: nothing said which part of the uid the node names keep",["C57_ids"]),
 ("mut2",12):("equivalent: the value returned for an empty string is never looked at",[]),
 ("mut2",22):("theorem gap: no theorem said that binding a new namespace ends with the IRI bound",["C43_bind"]),
 ("mut2",40):("the integer form of an identifier is never sent by the library; no claim covers it",[]),
 ("mut3",24):("theorem gap: every session of the histories had an up to date namespace cache",["C32_other_session"]),
 ("mut3",62):("equivalent: the guarded list is empty in that case",[]),
}
log=sys.argv[1]
name=log.split('/')[-1].split('.')[0]
out=open('/verif/seeded/LOG.jsonl','a')
for i,l in enumerate(open(log)):
    d=json.loads(l)
    for k in ((name,i),):
        if k in ANN:
            d['note']=(d.get('note','')+' '+ANN[k][0]).strip(); d['tightened']=ANN[k][1]
    out.write(json.dumps(d)+'\n')
