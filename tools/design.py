#!/usr/bin/env python3
"""Regenerate the tables of DESIGN.md: design_head.md + one row per property + the axioms of each theorem.
tools/assumptions.json is written by tools/assumptions.py (Print Assumptions on every theorem)."""
import json, os, re, glob
root = os.path.dirname(os.path.dirname(os.path.abspath(__file__)))
props = [json.loads(l) for l in open(root + '/properties.jsonl') if l.strip()]
man = {c['property']: c for c in json.load(open(root + '/MANIFEST.json'))['claims']}
ass = json.load(open(root + '/tools/assumptions.json'))
how = json.load(open(root + '/tools/how.json'))
where = {}
for f in sorted(glob.glob(root + '/rocq/theories/Props_*.v')):
    for m in re.finditer(r'^Theorem\s+((C\d+)\w*)', open(f).read(), re.M):
        where.setdefault(m.group(2), os.path.basename(f))
out = [open(root + '/tools/design_head.md').read()]
out.append('\n## Outcome per property\n\n`refuted`: a theorem exhibits an input on which the code violates the clause; the remaining theorems state what does hold.\n')
out.append('| id | property | file | model and proof | status | note |\n|----|----|----|----|----|----|\n')
for p in props:
    i = p['id']; c = man[i]
    st = c['status'] + (' (refuted clause)' if any(t.endswith('_refuted') for t in c['theorems']) else '')
    h = next((v for k, v in how.items() if i in k.split(',')), '')
    out.append('| %s | %s | %s | %s | %s | %s |\n' % (i, p['title'], where.get(i, '-'), h, st, c['note'].replace('|', '/').replace('\n', ' ')))
out.append('\n## What Print Assumptions lists\n\nEvery theorem not named below is closed under the global context.\n\n')
groups = {}
for t, a in ass.items():
    if a: groups.setdefault(tuple(a), []).append(t)
for a, ts in sorted(groups.items(), key=lambda x: -len(x[1])):
    out.append('Theorems that use ' + ', '.join('`%s`' % x for x in a) + ' (Coq standard library: Reals and the classical facts under it):\n\n' + ', '.join(sorted(ts)) + '\n\n')
open(root + '/DESIGN.md', 'w').write(''.join(out))
