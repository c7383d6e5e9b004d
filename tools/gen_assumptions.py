#!/usr/bin/env python3
"""Run Print Assumptions on every theorem of MANIFEST.json and rewrite the table between the markers in DESIGN.md.
Needs a built rocq/ directory."""
import json, os, re, subprocess, tempfile
ROOT = os.path.dirname(os.path.dirname(os.path.abspath(__file__)))
TH = os.path.join(ROOT, "rocq", "theories")
ths = []
for c in json.load(open(os.path.join(ROOT, "MANIFEST.json")))["claims"]:
    for t in c["theorems"]:
        if t not in ths: ths.append(t)
home = {}
for f in sorted(os.listdir(TH)):
    if f.endswith(".v"):
        for m in re.finditer(r"^\s*(?:Theorem|Lemma|Example|Corollary|Definition)\s+([^\s:({]+)", open(os.path.join(TH, f)).read(), re.M):
            home.setdefault(m.group(1), f[:-2])
src = "".join(f"From Verif Require {m}.\n" for m in sorted({home[t] for t in ths}))
# a marker before each answer: the (closed) statement of the theorem is not printed, its name is
for t in ths:
    src += f'Goal True. idtac "@@ {t}". exact I. Abort.\nPrint Assumptions Verif.{home[t]}.{t}.\n'
d = tempfile.mkdtemp()
open(os.path.join(d, "A.v"), "w").write(src)
out = subprocess.run(["coqc", "-Q", TH, "Verif", "A.v"], cwd=d, capture_output=True, text=True)
assert out.returncode == 0, out.stderr[-2000:]
ax = {}
for part in out.stdout.split("@@ ")[1:]:
    name, _, rest = part.partition("\n")
    if "Closed under the global context" in rest: ax[name.strip()] = frozenset()
    else: ax[name.strip()] = frozenset(re.findall(r"^([A-Za-z_][\w.]*)\s*(?::|$)", rest.replace("Axioms:", ""), re.M))
groups = {}
for t in ths: groups.setdefault(ax[t], []).append(t)
txt = [f"{len(ths)} theorems."]
for s in sorted(groups, key=lambda s: (len(s), sorted(s))):
    txt.append("")
    txt.append("**" + (", ".join(f"`{a}`" for a in sorted(s)) if s else "Closed under the global context (no axioms)") + f"** ({len(groups[s])}):")
    txt.append(", ".join(f"`{t}`" for t in groups[s]) + ".")
B, E = "<!-- assumptions: begin -->", "<!-- assumptions: end -->"
p = os.path.join(ROOT, "DESIGN.md"); s = open(p).read()
i, j = s.index(B) + len(B), s.index(E)
open(p, "w").write(s[:i] + "\n" + "\n".join(txt) + "\n" + s[j:])
print(len(ths), "theorems,", len(groups), "groups;", sorted(set().union(*groups)))
