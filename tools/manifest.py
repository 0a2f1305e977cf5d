#!/usr/bin/env python3
"""Regenerates MANIFEST.json: theorem names are collected from rocq/theories/Prop/*.v, status and notes from tools/status.json."""
import re, json, glob, os
root = os.path.dirname(os.path.dirname(os.path.abspath(__file__)))
st = json.load(open(root + '/tools/status.json'))
th = {}
for f in sorted(glob.glob(root + '/rocq/theories/Prop/*.v')):
    for m in re.finditer(r'^Theorem\s+(C\d\d)_(\w+)', open(f).read(), re.M):
        th.setdefault(m.group(1), []).append(m.group(1) + '_' + m.group(2))
claims = []
for l in open(root + '/properties.jsonl'):
    i = json.loads(l)['id']
    if i not in th:
        if i in st: claims.append({"property": i, "status": st[i][0], "theorems": [], "note": st[i][1]})
        else: print('no theorems:', i)
        continue
    s, note = st.get(i, ["partial", ""])
    claims.append({"property": i, "status": s, "theorems": th[i], "note": note})
json.dump({"claims": claims}, open(root + '/MANIFEST.json', 'w'), indent=1)
print(len(claims), 'claims', sum(len(c['theorems']) for c in claims), 'theorems')
