#!/usr/bin/env python3
"""Write theories/Props/<Name>.v from theories/Proof/<Src>.v.

Every lemma of the source file whose name ends in `_lem` is restated as a
theorem (name without `_lem`), closed by `exact`.  Blocks between (*EX*) and
(*XE*) are copied.  The header (between (*HEAD*) and (*DAEH*)) is copied too.
"""
import re, sys, os
root = os.path.join(os.path.dirname(os.path.abspath(__file__)), '..', 'rocq', 'theories')

def gen(src, dst, title):
    s = open(os.path.join(root, 'Proof', src + '.v')).read()
    head = re.search(r'\(\*HEAD\*\)\n(.*?)\(\*DAEH\*\)', s, re.S).group(1)
    out = ['(** %s\n    Statements only: each theorem is closed by the lemma of the same name in\n    Proof/%s.v.  Written by tools/mkprops.py. *)\n' % (title, src), head,
           'From Verif Require Import Proof.%s.\n' % src]
    pat = re.compile(r'((?:\(\*\*(?:(?!\*\)).)*\*\)\n)?)Lemma (\w+)_lem\s*:(.*?)\nProof\.|\(\*EX\*\)\n(.*?)\(\*XE\*\)', re.S)
    names = []
    for m in pat.finditer(s):
        if m.group(2):
            names.append(m.group(2))
            out.append('\n%sTheorem %s :%s\nProof. exact %s_lem. Qed.\nPrint Assumptions %s.\n'
                       % (m.group(1), m.group(2), m.group(3), m.group(2), m.group(2)))
        else:
            out.append('\n' + m.group(4))
    os.makedirs(os.path.join(root, 'Props'), exist_ok=True)
    open(os.path.join(root, 'Props', dst + '.v'), 'w').write(''.join(out))
    return names

if __name__ == '__main__':
    for line in open(os.path.join(root, '..', '..', 'tools', 'props.list')):
        line = line.strip()
        if line:
            src, dst, title = line.split('|')
            if len(sys.argv) > 1 and sys.argv[1] != src: continue
            print(dst, *gen(src, dst, title))
