exec(open('/tmp/w/addnotes.py').read()); exec(open('/tmp/w/addprops.py').read())
add_props([
dict(id="C63",title="A remote session behaves like a local one",
 statement="A session on a server, used through a client (TransportSessionClient) by one user, behaves like a session without server and backend that starts with the backend's content and the new root: after any history of creating, linking, unlinking, assigning, deleting, getting, loading, expiring, refreshing and committing, the client holds the same objects, links and attributes, get() and load() answer the same and the operations raise the same exceptions. What the client does is not seen by the server's session before commit(); commit() succeeds and makes the server's session and its backend hold exactly the client's content, leaving nothing pending on either side. Connecting gives the content of the backend together with the new root object. Restrictions: new objects get uids that have never been used (a reused uid keeps the deleted object's class in the server's session); objects deleted since the last commit are not loaded by uid; before the first commit nothing is removed from a root stored by an earlier session; and on connecting to a backend that already has a root, what the new root was created with is added to it, where a session used directly drops it.",
 quantifier="all histories of a client, all backend contents, ontologies with inverses, orders in which dictionaries are iterated",
 why_tests_cant="which objects are known to the client, to the server and to the backend, which are expired and which are pending on either side depends on the whole history; each combination takes another path through load, _send, _receive and the replay of buffers",
 anchors=["osp/core/session/transport/transport_session_client.py: TransportSessionClient._store, _load_from_backend, _send, _receive, __getattr__","osp/core/session/transport/transport_session_server.py: TransportSessionServer._run_command, _load_from_session, _init_session","osp/core/session/transport/transport_utils.py: serialize_buffers, deserialize_buffers","osp/core/session/wrapper_session.py: WrapperSession.load, refresh, _notify_read, _expire_neighour_diff","osp/core/session/db/db_wrapper_session.py: DbWrapperSession.commit, _store"]),
])
save({"C63":("proved","C63_connect, C63_same_as_local (all histories), C63_same_as_direct (against a session used directly), C63_get, C63_load, C63_writes, C63_isolated, C63_commit, C63_noted; the restrictions as C63_reconnect_refuted and C63_reused_uid_refuted.")})
d=open('/verif/DESIGN.md').read()
d=d.replace("\n## Trusted base","| C63 | Remote on Wrapper, Buffers | PropRemote | client and server as a pair; invariant: the client is a wrapper session whose backend is the server's content, the server's session is one up to type triples of dead objects; refinement of the in-memory session as in C30 |\n\n## Trusted base",1) if "| C63 |" not in d else d
d=d.replace("|\n\n| C63","|\n| C63")
open('/verif/DESIGN.md','w').write(d)
