#!/usr/bin/env python3
"""Regenerate MANIFEST.json and rocq/theories/Props/Audit.v.

Theorem names are read from rocq/theories/Props/*.v: a theorem belongs to the
property whose id starts its name.  Status and notes come from tools/status.json.
"""
import json, re, pathlib
root = pathlib.Path(__file__).resolve().parent.parent
props = root / 'rocq' / 'theories' / 'Props'
status = json.load(open(root / 'tools' / 'status.json'))
ids = [json.loads(l)['id'] for l in open(root / 'properties.jsonl') if l.strip()]
by_id, mods, all_names = {i: [] for i in ids}, [], []
order = [l.strip() for l in open(root / 'rocq' / '_CoqProject')]
for line in order:
    m = re.match(r'theories/Props/(\w+)\.v$', line)
    if not m or m.group(1) == 'Audit':
        continue
    mods.append(m.group(1))
    for name in re.findall(r'^Theorem (C\d+_\w+)', (props / (m.group(1) + '.v')).read_text(), re.M):
        by_id[name.split('_')[0]].append(name)
        all_names.append((m.group(1), name))
claims = []
for i in ids:
    st = status.get(i)
    if not by_id[i] and not st:
        continue
    st = st or {}
    default = 'proved'
    if any(n.endswith('_refuted') or n.endswith('_partial') for n in by_id[i]):
        default = 'partial'
    claims.append({'property': i, 'status': st.get('status', default),
                   'theorems': by_id[i], 'note': st.get('note', '')})
json.dump({'claims': claims}, open(root / 'MANIFEST.json', 'w'), indent=1)
with open(props / 'Audit.v', 'w') as f:
    f.write('(** Generated by tools/update.py: the assumptions of every theorem. *)\n')
    for m in mods:
        f.write('From Verif.Props Require %s.\n' % m)
    for m, n in all_names:
        f.write('Print Assumptions %s.%s.\n' % (m, n))
for c in claims:
    if c['status'] != 'proved' and not c['note']:
        print('no note:', c['property'], c['theorems'])
print(len(all_names), 'theorems', len(claims), 'claims')
