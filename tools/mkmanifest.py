#!/usr/bin/env python3
"""Regenerates MANIFEST.json from the theorem names in rocq/theories/*_props.v
and the notes in tools/notes.json ({"C01": {"note": "...", "status": "..."}})."""
import glob, json, os, re
root = os.path.dirname(os.path.dirname(os.path.abspath(__file__)))
thms = {}
for f in sorted(glob.glob(root + '/rocq/theories/*_props.v')):
    for m in re.finditer(r'^Theorem (C\d+)_(\w+)', open(f).read(), re.M):
        thms.setdefault(m.group(1), []).append(m.group(0).split()[1])
notes = json.load(open(root + '/tools/notes.json'))
claims = []
for line in open(root + '/properties.jsonl'):
    pid = json.loads(line)['id']
    ts = thms.get(pid, [])
    n = notes.get(pid, {})
    if not ts:
        status = n.get('status', 'partial')
        note = n.get('note', 'not yet proved: no theorem stated so far')
        status = status if status == 'not_applicable' else 'partial'
    else:
        part = any(t.endswith('_refuted') or t.endswith('_partial') for t in ts)
        status = n.get('status', 'partial' if part else 'proved')
        note = n.get('note', '')
    claims.append({'property': pid, 'status': status, 'theorems': ts, 'note': note})
json.dump({'claims': claims}, open(root + '/MANIFEST.json', 'w'), indent=1, ensure_ascii=False)
print(sum(c['status'] == 'proved' for c in claims), 'proved',
      sum(c['status'] == 'partial' and bool(c['theorems']) for c in claims), 'partial',
      sum(not c['theorems'] for c in claims), 'open')
