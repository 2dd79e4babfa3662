#!/usr/bin/env python3
"""Rebuild MANIFEST.json from the property theorems and tools/status.json."""
import glob, json, os, re
root = os.path.dirname(os.path.dirname(os.path.abspath(__file__)))
names = {}
for path in sorted(glob.glob(root + '/rocq/theories/Properties_*.v')):
    for m in re.finditer(r'^Theorem (C(\d+)_\w+)', open(path).read(), re.M):
        names.setdefault('C' + m.group(2), []).append(m.group(1))
status = json.load(open(root + '/tools/status.json'))
claims = []
for line in open(root + '/properties.jsonl'):
    pid = json.loads(line)['id']
    if pid not in names:
        claims.append({"property": pid, "status": "partial", "theorems": [],
                       "note": status.get(pid, ["", "no theorem yet"])[1]})
        continue
    st, note = status.get(pid, ["proved", ""])
    claims.append({"property": pid, "status": st, "theorems": names[pid], "note": note})
json.dump({"claims": claims}, open(root + '/MANIFEST.json', 'w'), indent=1)
