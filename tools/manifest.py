#!/usr/bin/env python3
"""Regenerate MANIFEST.json from the theorem names Cnn_* in rocq/theories/*Props.v
and the notes in tools/notes.json."""
import json, re, glob, os
root = os.path.dirname(os.path.dirname(os.path.abspath(__file__)))
thms = {}
for f in sorted(glob.glob(root + '/rocq/theories/*Props*.v')):
    for m in re.finditer(r'^Theorem (C\d+_\w+)', open(f).read(), re.M):
        thms.setdefault(m.group(1).split('_')[0], []).append(m.group(1))
notes = json.load(open(root + '/tools/notes.json'))
claims = []
for line in open(root + '/properties.jsonl'):
    pid = json.loads(line)['id']
    ts = thms.get(pid, [])
    if not ts and notes.get(pid, {}).get('status') != 'not_applicable':
        continue
    n = notes.get(pid, {})
    status = n.get('status') or ('partial' if any(t.endswith(('_partial', '_refuted')) for t in ts) else 'proved')
    claims.append({'property': pid, 'status': status, 'theorems': ts, 'note': n.get('note', '')})
json.dump({'claims': claims}, open(root + '/MANIFEST.json', 'w'), indent=1)
print(len(claims), 'claims', sum(len(c['theorems']) for c in claims), 'theorems')
