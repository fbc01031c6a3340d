import sys
p='/verif/rocq/_CoqProject'; s=open(p).read().rstrip()+"\n"
for f in sys.argv[1:]:
    l=f"theories/{f}.v\n"
    if l not in s: s+=l
open(p,'w').write(s)
