#!/usr/bin/env python3
"""Collects the theorems named Cxx_... in Props_*.v into MANIFEST.json."""
import glob, json, os, re
root = os.path.dirname(os.path.dirname(os.path.abspath(__file__)))
notes = {}
status = {}
exec(open(os.path.join(root, 'tools', 'manifest_notes.py')).read())
thms = {}
for f in sorted(glob.glob(os.path.join(root, 'rocq/theories/Props_*.v'))):
    for m in re.finditer(r'^Theorem\s+(C\d\d\w*)', open(f).read(), re.M):
        thms.setdefault(m.group(1)[:3], []).append(m.group(1))
claims = []
for line in open(os.path.join(root, 'properties.jsonl')):
    c = json.loads(line)['id']
    if c in thms:
        claims.append({"property": c, "status": status.get(c, "proved"), "theorems": thms[c], "note": notes.get(c, "")})
    elif status.get(c):
        claims.append({"property": c, "status": status[c], "theorems": [], "note": notes.get(c, "")})
json.dump({"claims": claims}, open(os.path.join(root, 'MANIFEST.json'), 'w'), indent=1)
print(len(claims), sum(len(c["theorems"]) for c in claims))
