#!/usr/bin/env python3
"""Regenerates MANIFEST.json: theorems are collected from rocq/theories by their Cxx_ prefix,
status overrides and notes come from tools/notes.json."""
import json, re, glob, os
root = os.path.dirname(os.path.dirname(os.path.abspath(__file__)))
props = [json.loads(l) for l in open(root + '/properties.jsonl') if l.strip()]
notes = json.load(open(root + '/tools/notes.json'))
found = {}
listed = [l.strip() for l in open(root + '/rocq/_CoqProject') if l.startswith('theories/')]
for f in listed:
    for m in re.finditer(r'^\s*Theorem\s+(C\d\d\d?)_(\w+)', open(root + '/rocq/' + f).read(), re.M):
        found.setdefault(m.group(1), []).append(m.group(1) + '_' + m.group(2))
claims = []
for p in props:
    n = notes.get(p['id'], {})
    th = found.get(p['id'], [])
    if not th and n.get('status') != 'not_applicable':
        continue
    status = n.get('status') or ('partial' if any(t.endswith('_partial') for t in th) else 'proved')
    claims.append({'property': p['id'], 'status': status, 'theorems': th, 'note': n.get('note', '')})
json.dump({'claims': claims}, open(root + '/MANIFEST.json', 'w'), indent=1)
print(len(claims), 'claims;', sum(len(c['theorems']) for c in claims), 'theorems; missing:',
      [p['id'] for p in props if p['id'] not in [c['property'] for c in claims]])
