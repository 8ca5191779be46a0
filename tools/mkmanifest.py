#!/usr/bin/env python3
"""Regenerates MANIFEST.json from the theorem names Cnn_* in rocq/theories/Prop*.v and tools/notes.json."""
import re, json, glob, os
root = os.path.dirname(os.path.dirname(os.path.abspath(__file__)))
thms = {}
for f in sorted(glob.glob(root + '/rocq/theories/Prop*.v')):
    for m in re.finditer(r'^(?:Theorem|Corollary)\s+(C\d\d_\w+)', open(f).read(), re.M):
        thms.setdefault(m.group(1)[:3], []).append(m.group(1))
notes = json.load(open(root + '/tools/notes.json'))
claims = []
for line in open(root + '/properties.jsonl'):
    if not line.strip(): continue
    i = json.loads(line)['id']
    n = notes.get(i, {})
    ts = thms.get(i, [])
    st = n.get('status') or ('partial' if any(t.endswith('_partial') for t in ts) else 'proved')
    if not ts:
        if n.get('status') != 'not_applicable': continue
    claims.append({'property': i, 'status': st, 'theorems': ts, 'note': n.get('note', '')})
json.dump({'claims': claims}, open(root + '/MANIFEST.json', 'w'), indent=1)
print(len(claims), [ (c['property'], c['status'], len(c['theorems'])) for c in claims])
