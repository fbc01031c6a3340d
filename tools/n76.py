exec(open('/tmp/w/addnotes.py').read()); exec(open('/tmp/w/addprops.py').read())
add_props([dict(id="C76",title="Received files stay in the receiving directory",
statement="Whatever frames a peer sends, and whether or not receiving fails midway, every file written while a request or a response is received is a direct entry of the temporary directory made for it (no separator, no '.' or '..', no NUL in its name). After a request is decoded the server has for every received file the hash of the received content, and its record of all other files of the connection is as before. A request (response) is delimited by itself: decoding it does not depend on the frames that follow, which are left for the next one.",
quantifier="all sequences of frames, all file names, contents and numbers of files, all earlier records of hashes",
why_tests_cant="a peer may send any frames; tests send the file names the client produces",
anchors=["osp/core/session/transport/communication_utils.py: receive_files, join_message, decode_header","osp/core/session/transport/communication_engine.py: CommunicationEngineServer._decode, CommunicationEngineClient._request"])])
save({"C76":("proved","Proto.v with frames as byte strings and the directory as the list of files written, latest first; 'written' in PropReceive.v is the directory at a return or at an exception, and is proved equal to the directory of receive_files when that returns. The temporary directory is empty when receiving starts. A websocket frame of type text where bytes are expected is an exception and not modelled.")})
p='/verif/DESIGN.md';s=open(p).read()
row="| C76 | Proto.v receive_files/_decode for arbitrary frames: names written are entries of the directory, hash record, self-delimitation (by induction on the number of files); PropReceive.v. |\n"
i=s.index("\n## Trusted base")
s=s[:i].rstrip("\n")+"\n"+row+s[i:]
open(p,'w').write(s)
