"""List every function of /repo/estrade and whether some definition of the model cites its lines."""
import ast,glob,re,os,sys
cites={}
names='|'.join(sorted({os.path.basename(p)[:-3] for p in glob.glob('/repo/estrade/**/*.py',recursive=True)},key=len,reverse=True))
pat=re.compile(r'((?:[\w]+/)*(?:%s)\.py):? ?(?:lines? |L)?([\d][\d\-, and]*)'%names)
for f in glob.glob('/verif/rocq/theories/*.v'):
    for m in pat.finditer(open(f).read()):
        for a in re.findall(r'(\d+)(?:-(\d+))?',m.group(2)):
            lo=int(a[0]);hi=int(a[1] or a[0])
            cites.setdefault(m.group(1),set()).update(range(lo,hi+1))
full={}
for p in glob.glob('/repo/estrade/**/*.py',recursive=True):
    rel=p[len('/repo/estrade/'):]
    s=set()
    for k,v in cites.items():
        if rel.endswith(k) or k.endswith(rel): s|=v
    full[rel]=s
    t=ast.parse(open(p).read())
    def walk(n,pre):
        for c in ast.iter_child_nodes(n):
            if isinstance(c,ast.ClassDef): walk(c,pre+c.name+'.')
            elif isinstance(c,ast.FunctionDef):
                b=[x for x in c.body if not(isinstance(x,ast.Expr) and isinstance(x.value,ast.Constant))]
                lines=set()
                for x in b: lines|=set(range(x.lineno,x.end_lineno+1))
                cov=len(lines&s)
                print('%-40s %-45s %d-%d %d/%d'%(rel,pre+c.name,c.lineno,c.end_lineno,cov,len(lines)), '' if cov==len(lines) else ('PART' if cov else 'NONE'))
                walk(c,pre+c.name+'.')
    walk(t,'')
