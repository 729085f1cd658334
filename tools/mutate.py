#!/usr/bin/env python3
"""mutate.py MUTANTS.json [OUT.jsonl]: test the theorems against wrong programs.

MUTANTS.json is a list of {definition, file, old, new, edit, claim, target}.  For each, the theories
are copied (with their compiled files) to a scratch directory, the one replacement is made, and every
file that depends on it is recompiled.  A proof that no longer goes through is replaced by Admitted
and noted, so that everything after it is still checked.  The theorems of the Prop files that fail are
those whose Print Assumptions then lists one of these admitted lemmas."""
import json, os, re, shutil, subprocess, sys, time
from concurrent.futures import ThreadPoolExecutor, wait, FIRST_COMPLETED
SRC = os.environ.get('MUT_SRC', '/verif/rocq')
TMP = os.environ.get('MUT_DIR', '/tmp/mut')
JOBS = int(os.environ.get('JOBS', '3'))
LIMIT = int(os.environ.get('LIMIT', '240'))
STD = ('ClassicalDedekindReals.', 'FunctionalExtensionality.', 'Classical_Prop.')
START = re.compile(r'^\s*(?:Local |Global |#\[\w+\] )*(?:Lemma|Theorem|Example|Corollary|Remark|Fact|Instance)\s+(\w+)', re.M)
DECL = re.compile(r'^\s*(?:Local |Global )*(?:Lemma|Theorem|Example|Corollary|Remark|Fact|Instance|Definition|Fixpoint|Inductive|Record|Ltac|Section|End|Require|From|Arguments|Notation)\b', re.M)

def deps(d):
    files = [l.strip() for l in open(d + '/_CoqProject') if l.strip().endswith('.v')]
    out = subprocess.run(['coqdep', '-Q', 'theories', 'Verif'] + files, cwd=d, capture_output=True, text=True).stdout
    g = {f: set() for f in files}
    for l in out.splitlines():
        m = re.match(r'(\S+)\.vo\b[^:]*:(.*)', l)
        if m:
            g[m.group(1) + '.v'] = {x[:-1] for x in m.group(2).split() if x.endswith('.vo') and x.startswith('theories/')} 
            g[m.group(1) + '.v'] = {x.replace('.v', '') + '.v' if not x.endswith('.v') else x for x in g[m.group(1) + '.v']}
    return g

def locate(src, off):
    last = None
    for m in START.finditer(src):
        if m.start() <= off:
            last = m
    return last

def admit(path, off):
    """Admit the lemma that contains character offset off (or drop it if its statement fails)."""
    src = open(path).read()
    m = locate(src, off)
    if not m:
        return None
    q = re.compile(r'\b(Qed|Defined|Admitted)\.').search(src, m.end())
    p = re.compile(r'\bProof\b').search(src, m.end())
    if not q or q.end() < off - 5:
        return None
    name = m.group(1)
    if p and p.start() <= off and 'Admitted' not in q.group(0):
        src = src[:p.start()] + 'Proof. Admitted.' + src[q.end():]
        kind = ''
    else:
        src = src[:m.start()] + '\n' + src[q.end():]
        kind = ' (statement)'
    open(path, 'w').write(src)
    return name + kind

def offset(path, line, col):
    data = open(path, 'rb').read().split(b'\n')
    b = sum(len(x) + 1 for x in data[:line - 1]) + col
    return len(open(path, 'rb').read()[:b].decode('utf8', 'ignore'))

def compile_file(d, f):
    failed, fatal, outp = [], None, ''
    path = os.path.join(d, f)
    for _ in range(120):
        try:
            r = subprocess.run(['coqc', '-Q', 'theories', 'Verif', f], cwd=d, capture_output=True, text=True, timeout=LIMIT)
            err, outp = r.stderr, r.stdout
            if r.returncode == 0:
                return failed, None, outp
            m = re.search(r'line (\d+), characters (\d+)-(\d+):\nError', err) or re.search(r'line (\d+), characters (\d+)-(\d+):', err)
            mm = list(re.finditer(r'line (\d+), characters (\d+)-(\d+):\n(?=Error)', err))
            if mm: m = mm[-1]
            if not m:
                mp = re.search(r'Error:.*pending proofs.*: (\w+)', err)
                return failed, 'no location: ' + err[-300:], outp
            off = offset(path, int(m.group(1)), int(m.group(2)))
        except subprocess.TimeoutExpired:
            try:
                r = subprocess.run('timeout %d coqc -time -Q theories Verif %s' % (LIMIT, f), cwd=d, shell=True, capture_output=True, text=True)
            except Exception as e:
                return failed, 'timeout', ''
            c = re.findall(r'Chars (\d+) - (\d+)', r.stdout)
            if not c:
                return failed, 'timeout', ''
            raw = open(path, 'rb').read()
            off = len(raw[:int(c[-1][1]) + 2].decode('utf8', 'ignore')) + 1
        n = admit(path, off)
        if n is None:
            return failed, 'cannot admit: ' + (err[-400:] if 'err' in dir() else ''), outp
        failed.append(n)
    return failed, 'too many', outp

def assumptions(src, out):
    names = re.findall(r'^Print Assumptions (\w+)\.', src, re.M)
    blocks, cur = [], None
    for l in out.splitlines():
        if l.startswith('Closed under the global context'):
            blocks.append([]); cur = None
        elif l.startswith('Axioms:'):
            blocks.append([]); cur = blocks[-1]
        elif cur is not None and re.match(r'^[A-Za-z_]', l):
            cur.append(l.split()[0])
    return list(zip(names, blocks)), len(names) == len(blocks)

def run(mut, base):
    d = TMP + '/w'
    shutil.rmtree(d, ignore_errors=True); subprocess.run(['cp', '-a', base, d], check=True)
    p = os.path.join(d, 'theories', mut['file'])
    s = open(p).read()
    if s.count(mut['old']) != 1:
        return {'error': 'old string occurs %d times' % s.count(mut['old'])}
    open(p, 'w').write(s.replace(mut['old'], mut['new']))
    g = deps(d)
    dirty = {'theories/' + mut['file']}
    ch = True
    while ch:
        ch = False
        for f in g:
            if f not in dirty and g[f] & dirty:
                dirty.add(f); ch = True
    for f in dirty:
        if os.path.basename(f).startswith('Prop'):
            s = open(os.path.join(d, f)).read()
            s = re.sub(r'^Print Assumptions \w+\.\n', '', s, flags=re.M)
            s += '\n' + '\n'.join('Print Assumptions %s.' % n for n in re.findall(r'^(?:Theorem|Example) (\w+)', s, re.M)) + '\n'
            open(os.path.join(d, f), 'w').write(s)
    done, failed, fatal, thms, running = set(), {}, {}, [], {}
    with ThreadPoolExecutor(JOBS) as ex:
        todo = set(dirty)
        while todo or running:
            for f in sorted(todo):
                if not (g[f] & dirty) - done and len(running) < JOBS:
                    running[ex.submit(compile_file, d, f)] = f; todo.discard(f)
            if not running:
                break
            for fu in wait(running, return_when=FIRST_COMPLETED)[0]:
                f = running.pop(fu); fl, ft, out = fu.result()
                if fl: failed[os.path.basename(f)] = fl
                if ft: fatal[os.path.basename(f)] = ft
                else:
                    done.add(f)
                if os.path.basename(f).startswith('Prop'):
                    src = open(os.path.join(d, f)).read()
                    a, ok = assumptions(src, out)
                    if not ok: fatal[os.path.basename(f)] = 'assumption blocks'
                    for n, ax in a:
                        if any(not x.startswith(STD) for x in ax): thms.append(n)
                    # theorems that had to be dropped
                    thms += [x.split()[0] for x in fl if x.startswith('C')]
    return {'failed_lemmas': failed, 'failed_theorems': sorted(set(thms)), 'fatal': fatal, 'not_reached': sorted(os.path.basename(f) for f in dirty - done)}

if __name__ == '__main__':
    muts = json.load(open(sys.argv[1]))
    out = sys.argv[2] if len(sys.argv) > 2 else TMP + '/out.jsonl'
    base = TMP + '/base'
    shutil.rmtree(base, ignore_errors=True); subprocess.run(['cp', '-a', SRC, base], check=True)
    for m in muts:
        t = time.time()
        r = run(m, base)
        r.update({k: m[k] for k in ('definition', 'file', 'edit', 'claim', 'target')}); r['seconds'] = round(time.time() - t)
        missed = [x for x in m['target'] if x not in r.get('failed_theorems', [])]
        r['missed'] = missed
        open(out, 'a').write(json.dumps(r) + '\n')
        print(m['definition'], '|', m['edit'], '|', r['seconds'], 's | failed', len(r.get('failed_theorems', [])), '| MISSED' if missed else '|', missed, r.get('fatal'), r.get('error', ''), flush=True)
