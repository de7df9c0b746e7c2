#!/usr/bin/env python3
"""Regenerate MANIFEST.json: collects Theorem Cxx_* from rocq/theories/Props_*.v;
status and notes come from tools/status.json."""
import re, json, glob, os
root = os.path.dirname(os.path.dirname(os.path.abspath(__file__)))
thms = {}
for f in sorted(glob.glob(root + '/rocq/theories/Props_*.v')):
    for m in re.finditer(r'^Theorem (C\d\d)_(\w+)', open(f).read(), re.M):
        thms.setdefault(m.group(1), []).append(m.group(1) + '_' + m.group(2))
st = json.load(open(root + '/tools/status.json'))
claims = []
for pid in sorted(thms):
    s = st.get(pid, ["proved", ""])
    claims.append({"property": pid, "status": s[0], "theorems": thms[pid], "note": s[1]})
json.dump({"claims": claims}, open(root + '/MANIFEST.json', 'w'), indent=1)
print(len(claims), 'claims', sum(map(len, thms.values())), 'theorems')
