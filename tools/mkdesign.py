#!/usr/bin/env python3
"""Regenerate the end of DESIGN.md (trusted base, modelled parts, findings) from the sources."""
import glob, json, os, re
root = os.path.dirname(os.path.dirname(os.path.abspath(__file__)))
th = os.path.join(root, 'rocq/theories')
notes = json.load(open(os.path.join(root, 'tools/notes.json')))
ax = json.load(open(os.path.join(root, 'tools/axioms.json')))
claims = json.load(open(os.path.join(root, 'MANIFEST.json')))['claims']
titles = {p['id']: p['title'] for p in map(json.loads, open(os.path.join(root, 'properties.jsonl')))}
def flat(s):
    return re.sub(r'\s+', ' ', s).strip()
comment = {}
for f in glob.glob(os.path.join(th, 'Prop_*.v')):
    s = open(f).read()
    for m in re.finditer(r'^Theorem (\w+)', s, re.M):
        before = s[:m.start()].rstrip()
        if before.endswith('*)'):
            i = before.rfind('(**')
            if i >= 0 and '*)' not in before[i:-2]:
                comment[m.group(1)] = flat(before[i + 3:-2])
out = ['## Trusted base',
 '* The kernel of Coq 8.16.1 (and `coqchk`). No native or virtual-machine checks are switched off; no own axioms, no admitted proofs.',
 '* The axioms reported by `Print Assumptions` (each `Prop_*.v` prints them; `tools/axioms.json` has the list for every theorem). They all come from the standard library of real numbers:']
groups = {}
for c in claims:
    for t in c['theorems']:
        if t in ax:
            groups.setdefault(tuple(ax[t]), []).append(t)
for g, ts in sorted(groups.items(), key=lambda x: len(x[0])):
    name = ', '.join('`%s`' % a for a in g) or 'no axioms ("Closed under the global context")'
    out.append('  * %s: %d theorems: %s.' % (name, len(ts), ', '.join(ts)))
out.append('* That the Gallina definitions transcribe the C code. Each definition cites file and lines. The transcription was done by reading; the code was never run. How far the theorems pin the definitions down was tested by mutation (`tools/mutate.py`, results in `seeded/LOG.jsonl`).')
out += ['', open(os.path.join(root, 'tools/external.md')).read().rstrip(), '', '### Modelled parts of the code']
for f in sorted(glob.glob(os.path.join(th, '*.v'))):
    b = os.path.basename(f)
    if re.search(r'^(Prop_|Spec)|Proofs|Example|Facts|Step|Bounds|Loops', b):
        continue
    m = re.match(r'\(\*\*(.*?)\*\)', open(f).read(), re.S)
    if m:
        out.append('* `%s`: %s' % (b, flat(m.group(1))))
out += ['', open(os.path.join(root, 'tools/not_modelled.md')).read().rstrip(), '', '## Findings',
 'Claims that are false of the faithful model. Each has a theorem with a witness; the comment of the theorem is quoted.']
for c in claims:
    r = [t for t in c['theorems'] if t.endswith('_refuted')]
    if r:
        out.append('* **%s %s**' % (c['property'], titles[c['property']]))
        out += ['  * `%s`: %s' % (t, comment.get(t, '(see the statement)')) for t in r]
out += ['', '## What is proved, what is missing']
for c in claims:
    if c['note']:
        out.append('* **%s** (%s). %s' % (c['property'], c['status'], flat(c['note'])))
p = os.path.join(root, 'DESIGN.md')
s = open(p).read()
i = s.index('\n## Trusted base')
open(p, 'w').write(s[:i + 1] + '\n'.join(out) + '\n')
missing = [t for c in claims for t in c['theorems'] if t.endswith('_refuted') and t not in comment]
print('no comment:', missing, '; no axioms recorded:', [t for c in claims for t in c['theorems'] if t not in ax])
