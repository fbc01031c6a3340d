import ast,glob,re,os
cit={}
for f in glob.glob('/verif/rocq/theories/*.v'):
    s=open(f).read()
    for m in re.finditer(r'(\w+)\.py:((?:\d+(?:-\d+)?)(?:,\s*:?\d+(?:-\d+)?)*)',s):
        for r in re.findall(r'(\d+)(?:-(\d+))?',m[2]):
            cit.setdefault(m[1],[]).append((int(r[0]),int(r[1] or r[0])))
for f in sorted(glob.glob('/repo/osp/**/*.py',recursive=True)):
    b=os.path.basename(f)[:-3]
    t=ast.parse(open(f).read())
    out=[]
    for n in ast.walk(t):
        if isinstance(n,(ast.FunctionDef,ast.AsyncFunctionDef)):
            if any(isinstance(d,ast.Name) and d.id=='abstractmethod' for d in n.decorator_list): continue
            if not any(a<=n.end_lineno and c>=n.lineno for a,c in cit.get(b,[])):
                out.append(f'{n.name}:{n.lineno}-{n.end_lineno}')
    if out: print(f.replace('/repo/osp/',''),len(out),' '.join(out))
