#!/usr/bin/env python3
"""Builds MANIFEST.json from the theorem names Cnn_* in rocq/theories/T_*.v and the notes below."""
import re, glob, json, os
os.chdir(os.path.dirname(os.path.abspath(__file__)) + '/..')
NOTES = json.load(open('tools/notes.json'))
thms = {}
for f in sorted(glob.glob('rocq/theories/T_*.v')):
    for m in re.finditer(r'^Theorem\s+(C\d\d+)(_\w+)', open(f).read(), re.M):
        thms.setdefault(m.group(1), []).append(m.group(1) + m.group(2))
claims = []
for line in open('properties.jsonl'):
    pid = json.loads(line)['id']
    ts = thms.get(pid, [])
    if not ts:
        continue
    status = 'partial' if any(t.endswith('_refuted') or t.endswith('_partial') for t in ts) else 'proved'
    n = NOTES.get(pid, '')
    if isinstance(n, dict):
        status = n.get('status', status); n = n['note']
    claims.append({'property': pid, 'status': status, 'theorems': ts, 'note': n})
json.dump({'claims': claims}, open('MANIFEST.json', 'w'), indent=1)
print(len(claims), 'claims', sum(len(c['theorems']) for c in claims), 'theorems')
