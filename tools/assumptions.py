#!/usr/bin/env python3
"""Write ASSUMPTIONS.md: the axioms below each property theorem, as Print
Assumptions reports them.  Needs a built tree in rocq/."""
import glob, os, re, subprocess
from concurrent.futures import ThreadPoolExecutor
V = os.path.join(os.path.dirname(os.path.abspath(__file__)), '..')
groups = {}
os.makedirs('/tmp/asm', exist_ok=True)
files = sorted(glob.glob(V + '/rocq/theories/Props/*.v'))
def printed(f):
    return subprocess.run(['coqc', '-Q', 'theories', 'Verif', '-o', '/tmp/asm/' + os.path.basename(f) + 'o', os.path.relpath(f, V + '/rocq')],
                         cwd=V + '/rocq', capture_output=True, text=True).stdout
with ThreadPoolExecutor(3) as pool: outputs = list(pool.map(printed, files))
for f, out in zip(files, outputs):
    names = re.findall(r'^Print Assumptions (\w+)\.', open(f).read(), re.M)
    parts = [x for x in re.split(r'^(?=Closed under the global|Axioms:)', out, flags=re.M) if x.startswith(('Closed', 'Axioms'))]
    assert len(parts) == len(names), (f, len(parts), len(names))
    for n, p in zip(names, parts):
        ax = () if p.startswith('Closed') else tuple(sorted(re.findall(r'^([A-Za-z]\w*(?:\.\w+)*)(?: :|$)', p[8:], re.M)))
        groups.setdefault(ax, []).append((os.path.basename(f)[:-2], n))
with open(V + '/ASSUMPTIONS.md', 'w') as o:
    o.write('# What `Print Assumptions` lists for each property theorem\n\nGenerated by `tools/assumptions.py`. All axioms are those of the standard library of Coq.\n')
    for ax, l in sorted(groups.items(), key=lambda x: len(x[0])):
        o.write('\n## %s (%d theorems)\n\n' % ('No axioms' if not ax else ', '.join('`%s`' % a for a in ax), len(l)))
        by = {}
        for f, n in l: by.setdefault(f, []).append(n)
        for f in by: o.write('* %s: %s\n' % (f, ', '.join(by[f])))
