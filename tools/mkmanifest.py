#!/usr/bin/env python3
"""Regenerate MANIFEST.json: claims.txt lines are  ID|status|theorem,theorem|note"""
import json, os, re, sys
root = os.path.dirname(os.path.dirname(os.path.abspath(__file__)))
claims = []
thms = set()
tdir = os.path.join(root, "rocq", "theories")
for f in os.listdir(tdir):
    if f.endswith(".v"):
        for l in open(os.path.join(tdir, f)):
            m = re.match(r"\s*Theorem\s+(\w+)", l)
            if m:
                thms.add(m.group(1))
used = set()
for l in open(os.path.join(root, "tools", "claims.txt")):
    l = l.strip()
    if not l or l.startswith("#"):
        continue
    pid, status, names, note = l.split("|", 3)
    names = [n.strip() for n in names.split(",") if n.strip()]
    for n in names:
        if n not in thms:
            print("unknown theorem", n, file=sys.stderr)
        used.add(n)
    claims.append({"property": pid, "status": status, "theorems": names, "note": note})
for t in sorted(thms - used):
    print("unlisted theorem", t, file=sys.stderr)
ids = [json.loads(l)["id"] for l in open(os.path.join(root, "properties.jsonl"))]
have = {c["property"] for c in claims}
for i in ids:
    if i not in have:
        print("no claim yet for", i, file=sys.stderr)
json.dump({"claims": claims}, open(os.path.join(root, "MANIFEST.json"), "w"), indent=1)
