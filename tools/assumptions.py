#!/usr/bin/env python3
"""Writes ASSUMPTIONS.md: the axioms each theorem of MANIFEST.json rests on.
Needs a finished build in rocq/."""
import json, re, glob, os, subprocess, tempfile
root = os.path.dirname(os.path.dirname(os.path.abspath(__file__)))
th = root + '/rocq/theories'
names = [t for c in json.load(open(root + '/MANIFEST.json'))['claims'] for t in c['theorems']]
where = {}
for f in glob.glob(th + '/Prop_*.v'):
    for n in re.findall(r'^Theorem (C\d\d\w*)', open(f).read(), re.M):
        where[n] = os.path.basename(f)[:-2]
src = 'From Verif Require ' + ' '.join(sorted({where[n] for n in names})) + '.\n'
src += ''.join(f'Print Assumptions {where[n]}.{n}.\n' for n in names)
with tempfile.TemporaryDirectory() as d:
    open(d + '/A.v', 'w').write(src)
    out = subprocess.run(['coqc', '-Q', th, 'Verif', d + '/A.v'], capture_output=True, text=True, check=True).stdout
blocks, cur = [], None
for l in out.split('\n'):
    if l.startswith('Closed under'):
        blocks.append([]); cur = None
    elif l.startswith('Axioms:'):
        cur = []; blocks.append(cur)
    elif cur is not None and l and not l[0].isspace():
        cur.append(l.split()[0])
assert len(blocks) == len(names)
kinds = {}
for n, b in zip(names, blocks):
    kinds.setdefault(tuple(sorted(b)), []).append(n)
with open(root + '/ASSUMPTIONS.md', 'w') as o:
    o.write('# Print Assumptions of every property theorem\n')
    for k, ns in sorted(kinds.items(), key=lambda x: len(x[0])):
        o.write('\n## ' + (', '.join(f'`{a}`' for a in k) if k else 'Closed under the global context') + f' ({len(ns)} theorems)\n\n')
        for n in ns:
            o.write(f'* `{where[n]}.{n}`\n')
