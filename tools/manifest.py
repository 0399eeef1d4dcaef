#!/usr/bin/env python3
"""Regenerates MANIFEST.json from the table below (theorem names are checked by grep)."""
import json, os, re, glob
HERE = os.path.dirname(os.path.abspath(__file__))
src = "".join(open(f).read() for f in glob.glob(HERE + "/../rocq/theories/*.v"))
names = set(re.findall(r"^\s*Theorem\s+(\w+)", src, re.M))
claims = []
def claim(pid, status, ths, note):
    for t in ths:
        assert t in names, (pid, t)
    claims.append({"property": pid, "status": status, "theorems": ths, "note": note})
exec(open(HERE + "/claims.py").read())
used = {t for c in claims for t in c["theorems"]}
for t in sorted(names):
    if re.match(r"c\d\d_", t) and t not in used:
        print("unlisted theorem:", t)
json.dump({"claims": sorted(claims, key=lambda c: c["property"])}, open(HERE + "/../MANIFEST.json", "w"), indent=1)
print(len(claims), "claims")
