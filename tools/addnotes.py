import sys
exec(open('/tmp/w/notes.py').read())
def save(new):
    NOTES.update(new)
    with open('/tmp/w/notes.py','w') as f:
        f.write("NOTES={\n")
        for k in sorted(NOTES): f.write(f"{k!r}:{NOTES[k]!r},\n")
        f.write("}\n")
