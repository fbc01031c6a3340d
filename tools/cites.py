import re,glob,os
root='/repo'
files={}
for dp,_,fs in os.walk(root):
    for f in fs:
        if f.endswith('.py'): files.setdefault(f,[]).append(os.path.join(dp,f))
bad=0
for v in sorted(glob.glob('/verif/rocq/theories/*.v')):
    s=open(v).read()
    for m in re.finditer(r'([\w/]+\.py):(\d+)(?:-(\d+))?((?:, *\d+(?:-\d+)?)*)\s*,?\s*(?:\[([\w.]+)\])?',s):
        f,a,b,_,name=m.groups()
        base=os.path.basename(f)
        c=[p for p in files.get(base,[]) if p.endswith('/'+f)] or files.get(base,[])
        ln=s[:m.start()].count('\n')+1
        if not c: print(os.path.basename(v),ln,m.group(0),'NOFILE'); bad+=1; continue
        a=int(a); b=int(b or a)
        ok=False; 
        for p in c:
            L=open(p).read().split('\n')
            if b<=len(L)+1:
                if name:
                    nm=name.split('.')[-1]
                    seg='\n'.join(L[a-1:b])
                    if nm in seg: ok=True
                else: ok=True
        if not ok: print(os.path.basename(v),ln,m.group(0)); bad+=1
print(bad)
