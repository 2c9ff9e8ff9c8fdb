#!/usr/bin/env python3
"""Regenerate MANIFEST.json: theorem names are read from Props_*.v, status and
notes from tools/notes.json (default status: proved)."""
import glob, json, os, re
root = os.path.dirname(os.path.dirname(os.path.abspath(__file__)))
names = {}
for f in sorted(glob.glob(root + '/rocq/theories/Props_*.v')):
    for m in re.finditer(r'^Theorem (C\d\d+)(_\w+)', open(f).read(), re.M):
        names.setdefault(m.group(1), []).append(m.group(1) + m.group(2))
notes = json.load(open(root + '/tools/notes.json'))
claims = []
for line in open(root + '/properties.jsonl'):
    if not line.strip():
        continue
    pid = json.loads(line)['id']
    n = notes.get(pid, {})
    ths = names.get(pid, [])
    if not ths and n.get('status') != 'not_applicable':
        continue
    refuted = [t for t in ths if t.endswith('_refuted')]
    note = n.get('note', '')
    if refuted:
        note = (note + ' ' if note else '') + \
            'Counterexamples to stronger or documented claims are kept as: ' + \
            ', '.join(refuted) + '.'
    claims.append({'property': pid, 'status': n.get('status', 'proved'),
                   'theorems': ths, 'note': note})
json.dump({'claims': claims}, open(root + '/MANIFEST.json', 'w'), indent=1)
print(len(claims), 'claims', sum(len(c['theorems']) for c in claims), 'theorems')
