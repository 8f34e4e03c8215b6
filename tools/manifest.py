#!/usr/bin/env python3
"""Write MANIFEST.json: theorems are collected from Props_*.v by their C-number
prefix; status and note come from tools/status.json."""
import json, re, glob, os
root = os.path.dirname(os.path.dirname(os.path.abspath(__file__)))
ids = [json.loads(l)["id"] for l in open(root + "/properties.jsonl")]
thms = {}
for f in sorted(glob.glob(root + "/rocq/theories/Props_*.v")):
    for m in re.finditer(r"^Theorem (C\d+)_(\w+)", open(f).read(), re.M):
        thms.setdefault(m.group(1), []).append(m.group(1) + "_" + m.group(2))
st = json.load(open(root + "/tools/status.json"))
claims = []
for i in ids:
    s = st.get(i)
    if not s or not thms.get(i):
        continue
    claims.append({"property": i, "status": s[0], "theorems": thms[i], "note": s[1]})
json.dump({"claims": claims}, open(root + "/MANIFEST.json", "w"), indent=1)
print(len(claims), "claims", sum(len(c["theorems"]) for c in claims), "theorems; missing:",
      [i for i in ids if i not in [c["property"] for c in claims]])
