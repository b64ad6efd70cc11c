import re,json,glob
notes=json.load(open('/verif/tools/notes.json'))
ths={}
for f in sorted(glob.glob('/verif/rocq/theories/Prop*.v')):
    for m in re.finditer(r'^Theorem (C(\d\d)_\w+)',open(f).read(),re.M):
        ths.setdefault('C'+m.group(2),[]).append(m.group(1))
ids=[json.loads(l)['id'] for l in open('/verif/properties.jsonl')]
claims=[]
for i in ids:
    n=notes.get(i,{})
    t=ths.get(i,[])
    if not t: continue
    claims.append({"property":i,"status":n.get("status","proved"),"theorems":t,"note":n.get("note","")})
json.dump({"claims":claims},open('/verif/MANIFEST.json','w'),indent=1)
print(len(claims),'claims')
