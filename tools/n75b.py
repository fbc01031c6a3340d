import json
exec(open('/tmp/w/addnotes.py').read())
P='/verif/properties.jsonl'
L=[json.loads(l) for l in open(P)]
for d in L:
    if d['id']=='C75':
        d['statement']="In an idle session of a database, refresh(u1, ..., un) gives every listed object that is loaded and has no uncommitted changes exactly the triples the database now holds of it, whatever the session held; no other object loses a triple, and at most a class known to the database is added to objects that a refreshed one links to. The objects that are read again on their next use are then exactly those that were before, without the refreshed ones, and the other loaded objects without uncommitted changes that became or ceased to be a neighbour (by some relationship) of a refreshed object other than the wrapper. A refreshed object that the database no longer has leaves the session with all its links; after the next use of a loaded former neighbour without uncommitted changes no link of it to that object is left, when the database mentions it no more. Listed objects that are not loaded or have uncommitted changes are not refreshed. The user's uncommitted changes are never touched. Refreshing all loaded objects when nothing is uncommitted leaves exactly those the database still has, with its triples, and nothing to be read again."
        d['quantifier']="all session states, all backends (unrelated to what the session holds), all lists of objects and orders of loading them"
open(P,'w').write(''.join(json.dumps(d,ensure_ascii=False)+'\n' for d in L))
save({"C75":("proved","Wrapper.v with an arbitrary backend graph in which the uid of the wrapper does not occur (it is stored as 0). C75_refresh_many: any list of objects (RefreshMany.v: induction over the loop in an arbitrary duplicate-free order); C75_refresh, C75_refresh_deleted: one object; C75_refresh_everything; C75_not_refreshed; C75_neighbour_follows. The hypothesis that no class of the objects concerned is a wrapper class is the store check (one wrapper per session); that a refreshed object is either absent from the database or has a class there holds for what commits write. C75_example, C75_many_example: another user deleted a city and moved its citizen.")})
