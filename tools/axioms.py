#!/usr/bin/env python3
"""Print Assumptions for every theorem of MANIFEST.json (after a build); writes tools/axioms.json
as {theorem: [axioms]}.  With the argument "new" only for theorems not yet recorded there."""
import glob, json, os, re, subprocess, sys, tempfile
root = os.path.dirname(os.path.dirname(os.path.abspath(__file__)))
thms = [t for c in json.load(open(os.path.join(root, 'MANIFEST.json')))['claims'] for t in c['theorems']]
mods = [os.path.basename(f)[:-2] for f in sorted(glob.glob(os.path.join(root, 'rocq/theories/Prop_*.v')))]
where = {}
for m in mods:
    for t in re.findall(r'^Theorem (\w+)', open(os.path.join(root, 'rocq/theories', m + '.v')).read(), re.M):
        where[t] = m
out = {}
if sys.argv[1:] == ['new']:
    out = {t: a for t, a in json.load(open(os.path.join(root, 'tools/axioms.json'))).items() if t in where}
with tempfile.TemporaryDirectory() as d:
    for m in mods:
        ts = [t for t in thms if where.get(t) == m and t not in out]
        if not ts:
            continue
        src = 'From Verif Require Import %s.\n' % m
        src += ''.join('Goal True. idtac "@@ %s". exact I. Qed.\nPrint Assumptions %s.%s.\n' % (t, m, t) for t in ts)
        p = os.path.join(d, 'ax_%s.v' % m)
        open(p, 'w').write(src)
        r = subprocess.run(['coqc', '-Q', os.path.join(root, 'rocq/theories'), 'Verif', p], capture_output=True, text=True)
        assert r.returncode == 0, r.stderr
        for part in r.stdout.split('@@ ')[1:]:
            name, body = part.split('\n', 1)
            out[name] = sorted(set(re.findall(r'^([A-Za-z_][\w.]*)\s*:', body, re.M)) - {'Axioms'})
json.dump(out, open(os.path.join(root, 'tools/axioms.json'), 'w'), indent=0, sort_keys=True)
print(len(out))
