#!/usr/bin/env python3
"""Regenerate MANIFEST.json from the theorem names in rocq/theories/Properties (CNN_name)."""
import glob, json, os, re
root = os.path.dirname(os.path.dirname(os.path.abspath(__file__)))
notes = {}
np = os.path.join(root, 'tools', 'notes.json')
if os.path.exists(np):
    notes = json.load(open(np))
thms = {}
for f in sorted(glob.glob(os.path.join(root, 'rocq/theories/Properties/*.v'))):
    for m in re.finditer(r'^Theorem\s+(C\d\d)_(\w+)', open(f).read(), re.M):
        thms.setdefault(m.group(1), []).append(m.group(1) + '_' + m.group(2))
claims = []
for line in open(os.path.join(root, 'properties.jsonl')):
    p = json.loads(line)
    i = p['id']
    ts = thms.get(i, [])
    n = notes.get(i, {})
    status = n.get('status') or ('not_applicable' if not ts else 'partial' if any(t.endswith('_partial') for t in ts) else 'proved')
    if not ts:
        if 'status' not in n:
            continue
    claims.append(dict(property=i, status=status, theorems=ts, note=n.get('note', '')))
json.dump(dict(claims=claims), open(os.path.join(root, 'MANIFEST.json'), 'w'), indent=1)
print({c['property']: (c['status'], len(c['theorems'])) for c in claims})
