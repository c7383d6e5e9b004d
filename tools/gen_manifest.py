#!/usr/bin/env python3
"""Write MANIFEST.json from the claims below, checking that every theorem named exists."""
import json, os, re, glob
HERE = os.path.dirname(os.path.abspath(__file__))
ROOT = os.path.dirname(HERE)
names = set()
for f in glob.glob(os.path.join(ROOT, "rocq/theories/*.v")):
    for m in re.finditer(r"^\s*(?:Theorem|Lemma|Corollary)\s+([^\s:({]+)", open(f).read(), re.M):
        names.add(m.group(1))
ids = [json.loads(l)["id"] for l in open(os.path.join(ROOT, "properties.jsonl"))]
claims = json.load(open(os.path.join(HERE, "claims.json")))
out = []
for i in ids:
    c = claims.get(i)
    if c is None:
        continue
    for t in c["theorems"]:
        assert t in names, (i, t)
    out.append({"property": i, **c})
missing = [i for i in ids if i not in claims]
json.dump({"claims": out}, open(os.path.join(ROOT, "MANIFEST.json"), "w"), ensure_ascii=False, indent=1)
print(len(out), "claims; missing:", missing)
used = {t for c in out for t in c["theorems"]}
pat = re.compile(r"^C\d\d_")
print("unlisted property theorems:", sorted(n for n in names if pat.match(n) and n not in used))
