exec(open('/tmp/w/addnotes.py').read()); exec(open('/tmp/w/addprops.py').read())
import json
P=[json.loads(l) for l in open('/verif/properties.jsonl')]
p=[x for x in P if x['id']=='C47'][0]
st=p['statement'].rstrip()+" A file that is sent ends up in the object's path with the content it had; when an unchanged file is downloaded a second time nothing is sent and the object is left with the path of the other side (exhibited)."
add_props([],upd={"C47":{"statement":st}})
save({"C47":("proved","Naming (C47_name_is_stable, C47_names_of_different_objects_differ: uids have one length), no overwriting of other objects' files (C47_no_overwrite), the file moved or sent (C47_moved_file, C47_download_sent). C47_path_is_local_refuted exhibits the exception named in the statement: the second download of an unchanged file leaves the server's path in the client's object.")})
