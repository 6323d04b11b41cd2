#!/usr/bin/env python3
"""Writes MANIFEST.json: theorem names are collected from rocq/theories/Props/*.v by prefix."""
import json, re, glob, os
root = os.path.join(os.path.dirname(__file__), '..')
STATUS = {}
exec(open(os.path.join(os.path.dirname(__file__), 'status.py')).read())
thms = {}
for f in sorted(glob.glob(root + '/rocq/theories/Props/*.v')):
    mod = 'Verif.Props.' + os.path.basename(f)[:-2]
    for m in re.finditer(r'^(?:Theorem|Lemma|Corollary)\s+(C\d+)(_\w+)', open(f).read(), re.M):
        thms.setdefault(m.group(1), []).append(m.group(1) + m.group(2))
claims = []
for l in open(root + '/properties.jsonl'):
    p = json.loads(l)['id']
    if p in thms:
        st, note = STATUS.get(p, ('proved', ''))
        claims.append({'property': p, 'status': st, 'theorems': thms[p], 'note': note})
    else:
        print('no theorem for', p)
json.dump({'claims': claims}, open(root + '/MANIFEST.json', 'w'), indent=1)
print(len(claims), 'claims', sum(len(c['theorems']) for c in claims), 'theorems')
