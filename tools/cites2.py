import re,glob,os,ast,sys
root='/repo'
files={}
for dp,_,fs in os.walk(root):
    for f in fs:
        if f.endswith('.py'): files.setdefault(f,[]).append(os.path.join(dp,f))
def defs(p):
    out={}
    t=ast.parse(open(p).read())
    def walk(n,cls):
        for c in ast.iter_child_nodes(n):
            if isinstance(c,(ast.FunctionDef,ast.ClassDef)):
                st=min([c.lineno]+[d.lineno for d in c.decorator_list])
                out.setdefault(c.name,[]).append((st,c.end_lineno))
                if cls: out.setdefault(cls+'.'+c.name,[]).append((st,c.end_lineno))
                walk(c,c.name if isinstance(c,ast.ClassDef) else cls)
            elif isinstance(c,ast.Assign) and not cls:
                for tg in c.targets:
                    if isinstance(tg,ast.Name): out.setdefault(tg.id,[]).append((c.lineno,c.end_lineno))
            else: walk(c,cls)
    walk(t,None)
    return out
fix='fix' in sys.argv
n=0
for v in sorted(glob.glob('/verif/rocq/theories/*.v')):
    s=open(v).read(); edits=[]
    for m in re.finditer(r'([\w/]+\.py):(\d+)(?:-(\d+))?(\s*,?:?\s*)\[([\w.]+)\]',s):
        f,a,b,sep,name=m.groups(); base=os.path.basename(f)
        c=[p for p in files.get(base,[]) if p.endswith('/'+f)] or files.get(base,[])
        a=int(a); b=int(b or a)
        cands=[]
        for p in c:
            d=defs(p)
            cands+= d.get(name,[]) or d.get(name.split('.')[-1],[])
        ln=s[:m.start()].count('\n')+1
        if not cands:
            print('??',os.path.basename(v),ln,m.group(0).replace('\n',' '),[x.replace(root,'') for x in c]); continue
        if any(x-2<=a and b<=y+2 for x,y in cands): continue
        if len(set(cands))>1:
            print('AMB',os.path.basename(v),ln,m.group(0).replace('\n',' '),cands); continue
        x,y=cands[0]
        if a==x and b>y+5: continue
        print('FIX',os.path.basename(v),ln,m.group(0).replace('\n',' '),'->',x,y); n+=1
        new=f'{f}:{x}-{y}{sep}[{name}]'
        edits.append((m.start(),m.end(),new))
    if fix and edits:
        for st,en,new in reversed(edits): s=s[:st]+new+s[en:]
        open(v,'w').write(s)
print(n)
