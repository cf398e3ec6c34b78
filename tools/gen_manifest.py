#!/usr/bin/env python3
"""Writes MANIFEST.json: theorem names are collected from the P_*.v files by
their Cxx_ prefix; statuses and notes come from tools/status.json."""
import json, re, glob, os
root = os.path.dirname(os.path.dirname(os.path.abspath(__file__)))
thms = {}
for f in sorted(glob.glob(root + '/rocq/theories/P_*.v')):
    for m in re.finditer(r'^Theorem (C\d\d)_(\w+)', open(f).read(), re.M):
        thms.setdefault(m.group(1), []).append(m.group(1) + '_' + m.group(2))
status = json.load(open(root + '/tools/status.json'))
claims = []
for c in sorted(status):
    s, note = status[c]
    if thms.get(c) or s == 'not_applicable':
        claims.append({"property": c, "status": s, "theorems": thms.get(c, []), "note": note})
for c in thms:
    assert c in status, c
json.dump({"claims": claims}, open(root + '/MANIFEST.json', 'w'), indent=1)
print(len(claims), 'claims', sum(len(c['theorems']) for c in claims), 'theorems')
