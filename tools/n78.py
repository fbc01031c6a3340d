exec(open('/tmp/w/addnotes.py').read()); exec(open('/tmp/w/addprops.py').read())
add_props([dict(id="C78",title="A client cannot choose what the server decides about its session",
statement="When a client initialises its session on a server: if the constructor of the session class names a parameter connection_id, it receives the id of the client's own connection, and if it names a parameter auth, it receives the client's authentication, whatever other arguments the client sends (a client that tries to give them itself is refused). If the server was started with arguments for its sessions, every client that sends arguments is refused with ValueError, and the session is constructed from the server's arguments, the connection id and the authentication alone. Otherwise every argument of the client reaches the constructor and nothing else does.",
quantifier="all session classes (named, keyword-only, variable parameters and defaults), all arguments of server and client, all connections",
why_tests_cant="must hold for every session class and for every client, including hostile ones",
anchors=["osp/core/session/transport/transport_session_server.py: TransportSessionServer._init_session","osp/core/session/transport/transport_session_server.py: TransportSessionServer.__init__"])])
save({"C78":("proved","Construct.v: lines 162-197 and Python's binding of call arguments (no positional-only parameters; the client's data is a list and a dict with distinct keys). C78_connection_id, C78_fixed_arguments, C78_client_arguments. Refuted for a class that takes connection_id only through **kwargs (C78_kwargs_refuted: it receives what the client claims), hence 'names a parameter' in the statement. What the server does with the constructed session is C04/C05 (Server.v, where construct is any function).")})
p='/verif/DESIGN.md';s=open(p).read()
row="| C78 | Construct.v: Python argument binding as association lists; the choice of arguments in _init_session; PropConstruct.v by case analysis and list lemmas. |\n"
i=s.index("\n## Trusted base")
s=s[:i].rstrip("\n")+"\n"+row+s[i:]
open(p,'w').write(s)
