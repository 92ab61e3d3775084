#!/usr/bin/env python3
"""Writes MANIFEST.json: theorem names are collected from the Prop*.v files by property id."""
import json, re, glob, os
root = os.path.join(os.path.dirname(os.path.abspath(__file__)), '..')
notes = json.load(open(os.path.join(root, 'tools', 'notes.json')))
names = {}
for f in sorted(glob.glob(os.path.join(root, 'rocq', 'theories', 'Prop*.v'))):
    for m in re.finditer(r'^Theorem ((C\d+)_\w+)', open(f).read(), re.M):
        names.setdefault(m.group(2), []).append(m.group(1))
claims = []
for l in open(os.path.join(root, 'properties.jsonl')):
    i = json.loads(l)['id']
    if i not in names:
        continue
    st = 'partial' if any(n.endswith('_partial') for n in names[i]) else 'proved'
    claims.append({'property': i, 'status': st, 'theorems': names[i], 'note': notes.get(i, '')})
json.dump({'claims': claims}, open(os.path.join(root, 'MANIFEST.json'), 'w'), indent=1)
