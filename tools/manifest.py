#!/usr/bin/env python3
"""Regenerate MANIFEST.json and rocq/_CoqProject from the theory files."""
import glob, json, os, re
root = os.path.dirname(os.path.dirname(os.path.abspath(__file__)))
th = os.path.join(root, 'rocq', 'theories')
notes = json.load(open(os.path.join(root, 'tools', 'notes.json')))
names = {}
for f in sorted(glob.glob(os.path.join(th, 'Prop*.v'))):
    for m in re.finditer(r'^Theorem (C\d+)_(\w+)', open(f).read(), re.M):
        names.setdefault(m.group(1), []).append(m.group(1) + '_' + m.group(2))
claims = []
for l in open(os.path.join(root, 'properties.jsonl')):
    pid = json.loads(l)['id']
    n = notes.get(pid, {})
    ts = names.get(pid, [])
    status = n.get('status') or ('partial' if not ts or any(t.endswith('_partial') for t in ts) else 'proved')
    claims.append({'property': pid, 'status': status, 'theorems': ts,
                   'note': n.get('note', '' if ts else 'not yet proved')})
json.dump({'claims': claims}, open(os.path.join(root, 'MANIFEST.json'), 'w'), indent=1)
files = sorted(os.path.basename(f) for f in glob.glob(os.path.join(th, '*.v')))
with open(os.path.join(root, 'rocq', '_CoqProject'), 'w') as o:
    o.write('-Q theories Verif\n')
    for f in files:
        o.write('theories/%s\n' % f)
print(sum(c['status'] == 'proved' for c in claims), 'of', len(claims), 'proved')
