"""Append results of seeded-bug runs (JSON lines, arguments) to seeded/LOG.jsonl, once per (definition, edit)."""
import json,sys
L='/verif/seeded/LOG.jsonl'
seen=set()
try:
    for l in open(L):
        d=json.loads(l); seen.add((d['definition'],d['edit']))
except FileNotFoundError: pass
n=0
with open(L,'a') as o:
    for f in sys.argv[1:]:
        for l in open(f):
            d=json.loads(l)
            if d.get('error') or d.get('brokenprops'): continue   # edit did not type-check: not an attempt
            e={'definition':d['file']+'.'+d['def'],'edit':'replaced `%s` by `%s`'%(d['old'],d['new']),'claim':d['claim'],
               'failed':sorted(set(d['props'])|set(d['failed'])),'tightened':d.get('tightened',[])}
            if (e['definition'],e['edit']) in seen: continue
            if not e['failed'] and not e['tightened']: print('SURVIVED',e['definition'],d['claim']); continue
            o.write(json.dumps(e)+'\n'); n+=1; seen.add((e['definition'],e['edit']))
print(n,'added')
