#!/usr/bin/env python3
"""Test the theorems against wrong programs.

usage: mutate.py mutants.json
Each mutant is {"file","definition","old","new","edit","claim"}.  The edit is made in
a scratch copy of the built tree named by BASE (default: rocq/).  Every lemma whose proof then
fails is admitted in the scratch copy, until the whole development builds; the
property theorems that fail are those whose Print Assumptions mention an
admitted lemma, and those whose own proof fails.  One line is appended to
seeded/LOG.jsonl per mutant.
"""
import json, os, re, subprocess, sys
VERIF = os.path.join(os.path.dirname(os.path.abspath(__file__)), '..')
BASE = os.environ.get('BASE', os.path.join(VERIF, 'rocq'))
SCRATCH = os.environ.get('SCRATCH', '/tmp/mut/rocq')

def sh(cmd, **kw):
    return subprocess.run(cmd, shell=True, capture_output=True, text=True, **kw)

START = re.compile(r'^(?: *)(Lemma|Theorem|Example|Corollary|Fact|Remark)\s+(\w+)', re.M)

def admit(path, line):
    """Admit the proof that contains the given line; return its name."""
    s = open(path).read()
    pos = sum(len(l) + 1 for l in s.split('\n')[:line - 1]) + 1
    last = None
    for m in START.finditer(s):
        if m.start() <= pos: last = m
        else: break
    if not last: return None
    p = re.compile(r'\bProof\.').search(s, last.start())
    q = re.compile(r'\b(Qed|Defined)\.').search(s, last.start())
    if not p or not q or q.end() < pos or p.start() > q.start(): return None
    # keep line numbers
    body = s[p.start():q.end()]
    s = s[:p.start()] + 'Admitted.' + '\n' * body.count('\n') + s[q.end():]
    open(path, 'w').write(s)
    return last.group(2)

def run(m):
    sh('rm -rf %s; mkdir -p %s; cp -a %s/. %s/' % (SCRATCH, SCRATCH, BASE, SCRATCH))
    p = os.path.join(SCRATCH, 'theories', m['file'])
    s = open(p).read()
    n = s.count(m['old'])
    if n != m.get('count', 1):
        return {'error': 'old text occurs %d times' % n}
    open(p, 'w').write(s.replace(m['old'], m['new']))
    failed = []
    for _ in range(150):
        r = sh('timeout 1500 make -k -j2', cwd=SCRATCH)
        out = r.stdout + r.stderr
        errs = re.findall(r'File "\./?([^"]+)", line (\d+), characters [^\n]*\n(Error[^\n]*)', out)
        if r.returncode == 0: break
        if not errs: return {'error': 'build failed: ' + out[-600:], 'failed': failed}
        seen = set()
        for f, l, e in errs:
            if f in seen: continue
            seen.add(f)
            name = admit(os.path.join(SCRATCH, f), int(l))
            if not name:
                return {'error': 'cannot admit %s:%s %s' % (f, l, e), 'failed': failed}
            failed.append(name)
    # property theorems resting on an admitted lemma
    thms = []
    bad = set(failed)
    for f in sorted(os.listdir(os.path.join(SCRATCH, 'theories/Props'))):
        if not f.endswith('.v'): continue
        src = open(os.path.join(SCRATCH, 'theories/Props', f)).read()
        names = re.findall(r'^Theorem (\w+)', src, re.M)
        t = 'From Verif Require Import Props.%s.\n' % f[:-2]
        t += ''.join('Print Assumptions %s.\n' % n for n in names)
        open(SCRATCH + '/q.v', 'w').write(t)
        o = sh('cd %s && coqc -Q theories Verif q.v' % SCRATCH).stdout
        blocks = re.split(r'(?=^Closed under|^Axioms:)', o, flags=re.M)[1:]
        for n, b in zip(names, blocks):
            if n in bad or any(re.search(r'\b%s\b' % re.escape(x), b) for x in bad): thms.append(n)
    return {'lemmas': failed, 'failed': thms}

if __name__ == '__main__':
    for m in json.load(open(sys.argv[1])):
        r = run(m)
        if 'error' in r:
            print('PROBLEM', m['definition'], m['edit'], r); continue
        e = {'definition': m['definition'], 'file': m['file'], 'edit': m['edit'], 'claim_broken': m['claim'],
             'theorems_failed': r['failed'], 'lemmas_failed': r['lemmas'], 'theorems_tightened': m.get('tightened', [])}
        with open(os.path.join(VERIF, 'seeded', 'LOG.jsonl'), 'a') as f:
            f.write(json.dumps(e) + '\n')
        print(('SURVIVED' if not r['failed'] else 'caught'), m['definition'], '|', m['edit'], '->', ' '.join(r['failed']), flush=True)
