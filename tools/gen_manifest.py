#!/usr/bin/env python3
"""Write MANIFEST.json: theorems are collected from rocq/theories/Prop_*.v by their Cxx_ prefix."""
import re, json, glob, os
root = os.path.dirname(os.path.dirname(os.path.abspath(__file__)))
notes = json.load(open(os.path.join(root, 'tools', 'notes.json')))
props = [json.loads(l)['id'] for l in open(os.path.join(root, 'properties.jsonl'))]
th = {}
for f in sorted(glob.glob(os.path.join(root, 'rocq/theories/Prop_*.v'))):
    for m in re.finditer(r'^Theorem\s+(C\d\d\w*)', open(f).read(), re.M):
        th.setdefault(m.group(1).split('_')[0], []).append(m.group(1))
claims = []
PENDING = []
for p in props:
    t = th.get(p, [])
    if not t: continue
    st = 'partial' if p in PENDING or any(x.endswith('_partial') or x.endswith('_refuted') for x in t) else 'proved'
    claims.append({'property': p, 'status': st, 'theorems': t, 'note': notes.get(p, '')})
json.dump({'claims': claims}, open(os.path.join(root, 'MANIFEST.json'), 'w'), indent=1)
print(len(claims), 'claims;', [p for p in props if p not in th], 'missing')
