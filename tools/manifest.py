import re,json,glob
notes=json.load(open('/verif/tools/notes.json'))
props=[json.loads(l)['id'] for l in open('/verif/properties.jsonl')]
th={}
for f in sorted(glob.glob('/verif/rocq/theories/Prop*.v')):
    for m in re.finditer(r'^Theorem (C(\d+)_\w+)',open(f).read(),re.M):
        th.setdefault('C'+m.group(2),[]).append(m.group(1))
claims=[]
for p in props:
    t=th.get(p,[])
    n=notes.get(p,{})
    st=n.get('status') or ('proved' if t else 'partial')
    if any(x.endswith('_partial') for x in t): st='partial'
    claims.append({'property':p,'status':st,'theorems':t,'note':n.get('note','') or ('' if t else 'no theorem yet')})
json.dump({'claims':claims},open('/verif/MANIFEST.json','w'),indent=1)
print(sum(1 for c in claims if c['theorems']),'of',len(claims),'missing',[c['property'] for c in claims if not c['theorems']])
