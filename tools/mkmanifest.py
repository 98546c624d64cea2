#!/usr/bin/env python3
"""Write MANIFEST.json.  Theorem names are collected from the *Props.v files by
their Cnn_ prefix; status and note are given here."""
import json, re, glob, os
root = os.path.join(os.path.dirname(os.path.abspath(__file__)), '..')
ids = [json.loads(l)['id'] for l in open(os.path.join(root, 'properties.jsonl'))]
thms = {}
for f in sorted(glob.glob(os.path.join(root, 'rocq/theories/*Props*.v'))):
    for m in re.finditer(r'^Theorem (C\d\d+)(_\w+)', open(f).read(), re.M):
        thms.setdefault(m.group(1), []).append(m.group(1) + m.group(2))
N = {}
exec(open(os.path.join(root, 'tools/notes.py')).read())
claims = []
missing = []
for i in ids:
    st, note = N.get(i, ('partial', 'Not modelled yet.'))
    claims.append({'property': i, 'status': st, 'theorems': thms.get(i, []), 'note': note})
    if st == 'proved' and any('_partial' in t for t in thms.get(i, [])):
        print('warning: proved with _partial theorem', i)
    if not thms.get(i) and st != 'not_applicable':
        missing.append(i)
for i in thms:
    if i not in ids: print('unknown property', i)
json.dump({'claims': claims}, open(os.path.join(root, 'MANIFEST.json'), 'w'), indent=1, ensure_ascii=False)
print('no theorem for:', *missing)
p = os.path.join(root, 'DESIGN.md')
t = open(p).read()
mark = 'no axiom is used, neither of the standard library nor of our own.\n'
t = t[:t.index(mark) + len(mark)] + '\n' + ''.join('* %s (%s): %s\n' % (c['property'], c['status'],
    ', '.join('`%s`' % x for x in c['theorems'])) for c in claims)
open(p, 'w').write(t)
