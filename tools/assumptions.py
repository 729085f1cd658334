#!/usr/bin/env python3
"""assumptions.py: write into DESIGN.md (between the markers) what Print Assumptions lists for every theorem of the
Prop files.  Run after a build, from /verif."""
import glob, os, re, subprocess, collections
os.chdir('/verif/rocq')
groups = collections.OrderedDict()
total = 0
for f in [l.strip() for l in open('_CoqProject') if re.match(r'theories/(Prop|Tests)', l)]:
    src = open(f).read()
    names = re.findall(r'^(?:Theorem|Example|Lemma) (\w+)', src, re.M)
    mod = os.path.basename(f)[:-2]
    q = '/tmp/pa_%s.v' % mod
    open(q, 'w').write('From Verif Require Import %s.\n' % mod + ''.join('Print Assumptions %s.%s.\n' % (mod, n) for n in names))
    out = subprocess.run(['coqc', '-Q', 'theories', 'Verif', q], capture_output=True, text=True, check=True).stdout
    blocks, cur = [], None
    for l in out.splitlines():
        if l.startswith('Closed under'):
            blocks.append([]); cur = None
        elif l.startswith('Axioms:'):
            cur = []; blocks.append(cur)
        elif cur is not None and re.match(r'^[A-Za-z_]', l):
            cur.append(l.split()[0])
    assert len(blocks) == len(names), (f, len(blocks), len(names))
    for n, b in zip(names, blocks):
        groups.setdefault(tuple(sorted(b)), []).append(n); total += 1
md = ['%d theorems and examples, grouped by the axioms that `Print Assumptions` lists for them.' % total, '']
for k in sorted(groups, key=lambda k: (len(k), k)):
    md.append('* **%s** (%d): %s' % (', '.join('`%s`' % a for a in k) if k else 'closed under the global context (no axioms)', len(groups[k]), ', '.join(groups[k])))
s = open('/verif/DESIGN.md').read()
a, b = '<!-- assumptions: begin -->', '<!-- assumptions: end -->'
i, j = s.index(a) + len(a), s.index(b)
open('/verif/DESIGN.md', 'w').write(s[:i] + '\n' + '\n'.join(md) + '\n' + s[j:])
