#!/usr/bin/env python3
"""Regenerate rocq/_CoqProject's file list and MANIFEST.json from the Props_*.v files.
notes.json maps a property id to {"status","note"}; theorems are collected by name prefix."""
import json, re, glob, os
root = os.path.dirname(os.path.dirname(os.path.abspath(__file__)))
files = sorted(os.path.relpath(f, root + '/rocq') for f in glob.glob(root + '/rocq/theories/*.v'))
open(root + '/rocq/_CoqProject', 'w').write('-Q theories Verif\n' + ''.join(f + '\n' for f in files))
props = [json.loads(l) for l in open(root + '/properties.jsonl') if l.strip()]
notes = json.load(open(root + '/tools/notes.json'))
thms = {}
for f in sorted(glob.glob(root + '/rocq/theories/Props_*.v')):
    mod = 'Verif.' + os.path.basename(f)[:-2]
    for m in re.finditer(r'^Theorem\s+((C\d+)\w*)', open(f).read(), re.M):
        pid = re.match(r'C\d+', m.group(1)).group(0)
        thms.setdefault(pid, []).append(m.group(1))
claims = []
for p in props:
    i = p['id']
    ts = thms.get(i, [])
    n = notes.get(i, {})
    if not ts:
        st = n.get('status', 'not_applicable')
        print('no theorem for', i)
    else:
        st = n.get('status') or ('partial' if any(t.endswith('_partial') or t.endswith('_refuted') for t in ts) else 'proved')
    claims.append({'property': i, 'status': st, 'theorems': ts, 'note': n.get('note', '')})
json.dump({'claims': claims}, open(root + '/MANIFEST.json', 'w'), indent=1)
print(sum(len(v) for v in thms.values()), 'theorems')
