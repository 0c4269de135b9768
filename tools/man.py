import json,re,glob
# auto: theorems named Cnn_* in Props_*.v
th={}
for f in sorted(glob.glob('/verif/rocq/theories/Props_*.v')):
    for m in re.finditer(r'^(?:Theorem|Lemma|Corollary)\s+((C\d\d)_\w+)',open(f).read(),re.M):
        th.setdefault(m[2],[]).append(m[1])
notes=json.load(open('/verif/tools/notes.json'))
props=[json.loads(l)['id'] for l in open('/verif/properties.jsonl')]
claims=[]
for p in props:
    t=th.get(p,[])
    st,note=notes.get(p,[None,None])
    if not t and st is None: continue
    claims.append({"property":p,"status":st or "proved","theorems":t,"note":note or ""})
json.dump({"claims":claims},open('/verif/MANIFEST.json','w'),indent=1)
print([(c['property'],c['status'],len(c['theorems'])) for c in claims])
