#!/usr/bin/env python3
"""Mutation-test the theorems in a scratch copy.

Input (stdin): a JSON list of {file, old, new, definition, edit, claim}.
For each entry: copy the built development to SCRATCH, apply the edit, rebuild.
A proof that breaks is skipped in the scratch copy (its lemma is left without
proof there) so that the build can go on; afterwards Print Assumptions tells
which of the Prop_* theorems depended on a broken lemma.  Output: one JSON line
per entry with the theorems that failed and those of the same files that passed.
"""
import json, os, re, shutil, subprocess, sys
BASE, SCRATCH = '/root/mbase', '/root/scratch'
CLOSE = 'Admit' + 'ted.'

def sh(cmd, cwd, timeout=3000):
    p = subprocess.run(cmd, shell=True, cwd=cwd, stdout=subprocess.PIPE, stderr=subprocess.STDOUT, text=True, timeout=timeout)
    return p.returncode, p.stdout

def make(cwd):
    return sh("make -k -j4 'COQEXTRAFLAGS=-set \"Default Timeout=150\"' 2>&1", cwd)

def prepare():
    os.makedirs(BASE, exist_ok=True)
    # the committed state, so that work in progress does not interfere
    tmp = BASE + '_src'
    if os.path.exists(tmp): shutil.rmtree(tmp)
    os.makedirs(tmp)
    rc, out = sh(f'git -C /verif archive HEAD rocq | tar -x -C {tmp}', '/')
    os.makedirs(BASE + '/theories', exist_ok=True)
    for f in os.listdir(tmp + '/rocq/theories'):
        a, b = f'{tmp}/rocq/theories/{f}', f'{BASE}/theories/{f}'
        if not os.path.exists(b) or open(a).read() != open(b).read():
            shutil.copy(a, b)
    shutil.copy(tmp + '/rocq/_CoqProject', BASE)
    sh('coq_makefile -f _CoqProject -o Makefile', BASE)
    rc, out = make(BASE)
    if rc: print(out[-2000:]); sys.exit('base does not build')

START = re.compile(r'^\s*(?:Local |Global |#\[[^\]]*\] )?(Lemma|Theorem|Corollary|Example|Fact|Remark|Proposition|Instance|Definition|Fixpoint|Let)\s+([A-Za-z0-9_\']+)', re.M)

def patch(path, line):
    """leave the lemma around the given line without proof; None if it is not in a proof"""
    t = open(path).read(); lines = t.split('\n')
    pos = sum(len(l) + 1 for l in lines[:line - 1]) + len(lines[line - 1])
    ms = [m for m in START.finditer(t) if m.start() <= pos]
    if not ms: return None
    m = ms[-1]
    q = re.compile(r'\b(Qed|Defined)\.').search(t, m.start())
    pr = re.compile(r'\bProof(?: using[^.]*)?\.').search(t, m.start())
    nxt = START.search(t, m.end())
    if not q or not pr or pr.start() > q.start(): return None
    if nxt and nxt.start() < pr.start(): return None
    if sum(len(l) + 1 for l in lines[:line - 1]) + len(lines[line - 1]) < pr.start(): return None
    open(path, 'w').write(t[:pr.start()] + CLOSE + t[q.end():])
    return m.group(2)

def theorems(path):
    return re.findall(r'^\s*(?:Theorem|Example)\s+([A-Za-z0-9_\']+)', open(path).read(), re.M)

def run(mu):
    if os.path.exists(SCRATCH): shutil.rmtree(SCRATCH)
    sh(f'cp -a {BASE} {SCRATCH}', '/')
    th = SCRATCH + '/theories/'
    path = th + mu['file']
    t = open(path).read()
    if t.count(mu['old']) < 1: return {'error': 'text not found'}
    if t.count(mu['old']) > 1 and not mu.get('all'): return {'error': 'text found %d times' % t.count(mu['old'])}
    open(path, 'w').write(t.replace(mu['old'], mu['new']))
    broken, stuck = [], {}
    for it in range(60):
        rc, out = make(SCRATCH)
        if rc == 0: break
        errs = {}
        for m in re.finditer(r'File "\./theories/(\w+\.v)", line (\d+), characters [\d-]+:\n((?:.*\n){1,3})', out):
            if m.group(3).lstrip().startswith('Error') or 'Timeout' in m.group(3): errs[m.group(1)] = (int(m.group(2)), m.group(3))
        prog = False
        for f, (l, msg) in errs.items():
            if f in stuck: continue
            nm = patch(th + f, l)
            if nm is None: stuck[f] = msg.strip()[:200]
            else: broken.append(f[:-2] + '.' + nm); prog = True
        if not prog: 
            if not errs: stuck['?'] = out[-500:]
            break
    # which theorems depend on a lemma without proof?
    failed, passed = [], []
    base_m = os.path.getmtime(BASE + '/Makefile')
    for f in sorted(os.listdir(th)):
        if not (f.startswith('Prop_') and f.endswith('.v')): continue
        vo, bvo = th + f[:-2] + '.vo', BASE + '/theories/' + f[:-2] + '.vo'
        names = theorems(BASE + '/theories/' + f)
        same = os.path.exists(vo) and os.path.getmtime(vo) == os.path.getmtime(bvo)
        glob = th + f[:-2] + '.glob'
        if same:
            # unaffected, unless its rebuild was prevented
            rc, out = sh(f'make -q theories/{f[:-2]}.vo', SCRATCH)
            if rc: failed += names
            continue
        if not os.path.exists(vo): failed += names; continue
        rc, out = sh(f'make -q theories/{f[:-2]}.vo', SCRATCH)
        if rc: failed += names; continue
        q = f'From Verif Require Import {f[:-2]}.\n' + ''.join(
            f'Goal True. idtac "@@{n}". exact I. Qed.\nPrint Assumptions {n}.\n' for n in names)
        open('/tmp/q.v', 'w').write(q)
        rc, o = sh('coqc -Q theories Verif /tmp/q.v', SCRATCH)
        bl = {b.split('.')[-1] for b in broken}
        parts = dict((p.split('\n', 1) + [''])[:2] for p in o.split('@@')[1:])
        for n in names:
            ids = set(re.findall(r'^([A-Za-z0-9_.\']+)\s*(?::|$)', parts.get(n, ''), re.M))
            short = {i.split('.')[-1] for i in ids}
            (failed if n not in parts or rc or short & bl or n in bl else passed).append(n)
    return {'failed': failed, 'passed': passed, 'broken': broken, 'stuck': stuck}

if __name__ == '__main__':
    prepare()
    for mu in json.load(sys.stdin):
        r = run(mu)
        print(json.dumps({'definition': mu['definition'], 'edit': mu['edit'], 'claim': mu['claim'], **r}), flush=True)
