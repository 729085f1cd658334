#!/usr/bin/env python3
"""Write rocq/theories/Prop*.v and MANIFEST.json from the lemmas cNN_* of the proof files.

A proof file states each property as a closed lemma `Lemma cNN_name : statement.`; the
Prop file repeats the statement as `Theorem CNN_name`, closed by `exact cNN_name`, prints its
assumptions, and puts the concrete cases (`cNN_..._example`) beside it.  The statements are
re-elaborated by Coq in the Prop file, so a Prop file shows exactly what is proved.
Status and notes come from tools/claims.json."""
import json, os, re, sys
ROOT = os.path.dirname(os.path.dirname(os.path.abspath(__file__)))
TH = os.path.join(ROOT, 'rocq', 'theories')
GROUPS = json.load(open(os.path.join(ROOT, 'tools', 'groups.json')))
CLAIMS = json.load(open(os.path.join(ROOT, 'tools', 'claims.json')))
TITLES = {}
for l in open(os.path.join(ROOT, 'properties.jsonl')):
    if l.strip():
        d = json.loads(l); TITLES[d['id']] = d['title']
RX = re.compile(r'((?:^\(\*\*(?:(?!\*\)).)*?\*\)\n)?)^Lemma (c\d\d\w*)\s*:\s*(.*?)\.\nProof\b', re.S | re.M)
found = {}
def number(name):
    return int(re.match(r'[cC](\d+)', name).group(1))
for g in GROUPS:
    items = []
    for f in g['files']:
        src = open(os.path.join(TH, f + '.v')).read()
        for m in RX.finditer(src):
            com, name, stmt = m.groups()
            if com.startswith('(** **'):
                com = ''
            items.append((name, stmt, com, f))
        n = len(re.findall(r'^(?:Lemma|Theorem|Example) c\d\d', src, re.M))
        k = len([1 for i in items if i[3] == f])
        if n != k:
            sys.exit('%s: %d lemmas cNN_*, %d recognised' % (f, n, k))
    items.sort(key=lambda i: number(i[0]))        # stable: file order within a property
    out = ['(** * %s' % g['title'], '',
           '    Written by tools/genprops.py: statements only, each closed by the lemma of the',
           '    same name in %s. *)' % ', '.join(f + '.v' for f in g['files'])]
    out += g['header'] + ['']
    last = None
    for name, stmt, com, f in items:
        pid = 'C%02d' % number(name)
        if pid != last:
            out += ['(** ** %s %s *)' % (pid, TITLES[pid]), '']
            last = pid
        if com:
            out += [com.rstrip()]
        ex = name.endswith('_example')
        up = 'C' + name[1:]
        out += ['%s %s : %s.' % ('Example' if ex else 'Theorem', up, stmt), 'Proof. exact %s. Qed.' % name]
        if not ex:
            out += ['Print Assumptions %s.' % up]
        out += ['']
        found.setdefault(pid, []).append(up)
    path, text = os.path.join(TH, g['name'] + '.v'), '\n'.join(out)
    if not os.path.exists(path) or open(path).read() != text:
        open(path, 'w').write(text)
claims = []
for pid in sorted(found, key=number):
    c = CLAIMS.get(pid, {})
    st = c.get('status', 'proved')
    thms = [t for t in found[pid] if not t.endswith('_example')]
    exs = [t for t in found[pid] if t.endswith('_example')]
    note = c.get('note', '')
    if exs:
        note = (note + ' ' if note else '') + 'Concrete cases: ' + ', '.join(exs) + '.'
    if st == 'proved' and any(t.endswith('_refuted') or t.endswith('_partial') for t in thms):
        sys.exit('%s: status?' % pid)
    claims.append({'property': pid, 'status': st, 'theorems': thms, 'note': note})
json.dump({'claims': claims}, open(os.path.join(ROOT, 'MANIFEST.json'), 'w'), indent=1)
missing = [p for p in TITLES if p not in found]
print('%d properties, missing: %s' % (len(found), ' '.join(missing)))
