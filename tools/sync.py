#!/usr/bin/env python3
"""Refresh _CoqProject (file list) and MANIFEST.json (from tools/claims.txt).

claims.txt: one claim per line, property|status|theorem names separated by spaces|note.
"""
import os, json, glob, re
top = os.path.join(os.path.dirname(os.path.abspath(__file__)), '..')
th = os.path.join(top, 'rocq', 'theories')
files = sorted(os.path.relpath(f, os.path.join(top, 'rocq')) for f in glob.glob(th + '/**/*.v', recursive=True))
order = {'Base': 0, 'Model': 1, 'Spec': 2, 'Proof': 3, 'Props': 4}
files.sort(key=lambda f: (order.get(f.split('/')[1], 9), f))
open(os.path.join(top, 'rocq', '_CoqProject'), 'w').write('-Q theories Verif\n' + ''.join(f + '\n' for f in files))
known = set()
for f in files:
    if '/Props/' in f:
        known |= set(re.findall(r'^Theorem (\w+)', open(os.path.join(top, 'rocq', f)).read(), re.M))
claims, used = [], set()
for line in open(os.path.join(top, 'tools', 'claims.txt')):
    line = line.strip()
    if not line or line.startswith('#'): continue
    p, st, ths, note = line.split('|', 3)
    ths = ths.split()
    for t in ths:
        if t not in known: print('UNKNOWN theorem', p, t)
        used.add(t)
    claims.append({'property': p, 'status': st, 'theorems': ths, 'note': note})
for t in sorted(known - used): print('unclaimed theorem', t)
props = [json.loads(l)['id'] for l in open(os.path.join(top, 'properties.jsonl')) if l.strip()]
have = {c['property'] for c in claims}
print('properties without claim:', [p for p in props if p not in have])
json.dump({'claims': claims}, open(os.path.join(top, 'MANIFEST.json'), 'w'), indent=1)
