#!/usr/bin/env python3
"""Rebuild MANIFEST.json and rocq/_CoqProject from the sources.

Theorems are found by name (Cxx_...) in rocq/theories/Props. Status and notes
come from tools/notes.json: {"C01": {"status": "proved", "note": "..."}}.
"""
import json, re, glob, os
root = os.path.dirname(os.path.dirname(os.path.abspath(__file__)))
th = {}
for f in sorted(glob.glob(root + '/rocq/theories/Props/*.v')):
    for m in re.finditer(r'^Theorem\s+((C\d\d+)_\w+)', open(f).read(), re.M):
        th.setdefault(m.group(2), []).append(m.group(1))
notes = json.load(open(root + '/tools/notes.json'))
claims = []
for line in open(root + '/properties.jsonl'):
    pid = json.loads(line)['id']
    n = notes.get(pid, {})
    if pid in th:
        claims.append({'property': pid, 'status': n.get('status', 'proved'),
                       'theorems': th[pid], 'note': n.get('note', '')})
    elif n.get('status') == 'not_applicable':
        claims.append({'property': pid, 'status': 'not_applicable', 'theorems': [], 'note': n['note']})
json.dump({'claims': claims}, open(root + '/MANIFEST.json', 'w'), indent=1)
order = ['Base', 'Model', 'Spec', 'Proof', 'Props']
files = []
for d in order:
    files += sorted(glob.glob(root + '/rocq/theories/%s/*.v' % d))
with open(root + '/rocq/_CoqProject', 'w') as o:
    o.write('-Q theories Verif\n')
    for f in files:
        o.write(os.path.relpath(f, root + '/rocq') + '\n')
print(len(claims), 'claims,', sum(len(c['theorems']) for c in claims), 'theorems')
