#!/usr/bin/env python3
"""Regenerate MANIFEST.json from the theorems named Cnn_... in rocq/theories/Props_*.v and the notes below."""
import re, glob, json, os
root = os.path.dirname(os.path.dirname(os.path.abspath(__file__)))
notes = json.load(open(os.path.join(root, 'tools', 'notes.json')))
thms = {}
for f in sorted(glob.glob(os.path.join(root, 'rocq/theories/Props_*.v'))):
    for m in re.finditer(r'^Theorem ((C\d\d)_\w+)', open(f).read(), re.M):
        thms.setdefault(m.group(2), []).append(m.group(1))
props = [json.loads(l)['id'] for l in open(os.path.join(root, 'properties.jsonl'))]
claims = []
for p in props:
    if p not in thms: continue
    n = notes.get(p, {})
    status = n.get('status') or ('partial' if any(t.endswith('_partial') for t in thms[p]) else 'proved')
    claims.append({'property': p, 'status': status, 'theorems': thms[p], 'note': n.get('note', '')})
json.dump({'claims': claims}, open(os.path.join(root, 'MANIFEST.json'), 'w'), indent=1)
print(len(claims), 'claims;', sum(len(c['theorems']) for c in claims), 'theorems; missing:', [p for p in props if p not in thms])
