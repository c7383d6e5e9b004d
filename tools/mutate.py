#!/usr/bin/env python3
"""Mutation test of the theorems.  usage: mutate.py [--new] [first-name ...]

Reads seeded/mutants.py (a list M of dicts name, file, definition, old, new, edit, claim), applies each edit to a
scratch copy of the theories (in /tmp/mut), rebuilds, and reports which theorems no longer prove.  A proof that
fails is replaced, in the scratch copy only, so that later failures are seen too; a property theorem counts as failed
if its own proof fails or if it uses a failed lemma.  One JSON line per mutant is appended to seeded/LOG.jsonl."""
import json, os, re, shutil, subprocess, sys
ROOT = os.path.dirname(os.path.dirname(os.path.abspath(__file__)))
SRC = os.environ.get("MUT_SRC", os.path.join(ROOT, "rocq", "theories"))
WORK = os.environ.get("MUT_WORK", "/tmp/mut")
LOG = os.path.join(ROOT, "seeded", "LOG.jsonl")
START = re.compile(r"^\s*(Lemma|Theorem|Example|Corollary|Fact|Remark|Definition|Fixpoint)\s+([^\s:({]+)")

LTAC = re.compile(r"^\s*(Ltac)\s+([^\s:({]+)")   # so that a theorem proved by a tactic counts as using the tactic's lemmas

def deps():
    out = {}
    for f in sorted(os.listdir(SRC)):
        if not f.endswith(".v"): continue
        txt = open(os.path.join(SRC, f)).read()
        ds = set()
        for m in re.finditer(r"From Verif Require (?:Import|Export)?\s*([^.]*)\.", txt):
            ds |= {d + ".v" for d in m.group(1).split()}
        out[f] = ds
    return out

def order(dp, changed):
    aff = {changed}
    while True:
        new = {f for f in dp if dp[f] & aff} | aff
        if new == aff: break
        aff = new
    res, done = [], set()
    def visit(f):
        if f in done: return
        done.add(f)
        for d in sorted(dp[f]):
            if d in dp: visit(d)
        if f in aff: res.append(f)
    for f in sorted(dp): visit(f)
    return res

def coqc(f):
    """Compile f.  After a timeout the message points at the sentence that was running, so that its proof can be replaced."""
    limit = int(os.environ.get("MUT_TIMEOUT", "600"))
    out = os.path.join(WORK, "coqc.out")
    with open(out, "wb") as h:
        p = subprocess.Popen(["coqc", "-time", "-Q", ".", "Verif", f], cwd=WORK, stdout=h, stderr=subprocess.STDOUT)
        try:
            rc = p.wait(timeout=limit)
        except subprocess.TimeoutExpired:
            p.kill(); p.wait(); rc = 99
    txt = open(out, "rb").read().decode("utf-8", "replace")
    if rc != 99:
        return rc, "\n".join(l for l in txt.split("\n") if not l.startswith("Chars "))
    ends = [int(m.group(1)) for m in re.finditer(r"^Chars \d+ - (\d+) ", txt, re.M)]
    src = open(os.path.join(WORK, f), "rb").read()
    end = ends[-1] if ends else 0
    rest = src[end:]
    line = src[:end].count(b"\n") + 1 + (rest[:len(rest) - len(rest.lstrip())]).count(b"\n")
    return rc, 'File "./%s", line %d, characters 0-0:\nError: TIMEOUT' % (f, line)

def build(f, failed):
    """Compile f, replacing failing proofs; returns True if it finally compiles."""
    for _ in range(200):
        rc, out = coqc(f)
        if rc == 0: return True
        m = None
        for m in re.finditer(r'File "\./' + re.escape(f) + r'", line (\d+), characters [\d-]+:\s*\n(?:Error|.*\nError)', out): pass
        if m is None:
            for m in re.finditer(r'File "\./' + re.escape(f) + r'", line (\d+)', out): pass
        if m is None:
            print("  cannot locate error in", f, out[-300:]); failed.append(f + ":?"); return False
        n = int(m.group(1)) - 1
        path = os.path.join(WORK, f)
        lines = open(path).read().split("\n")
        i = n
        while i >= 0 and not START.match(lines[i]): i -= 1
        if i < 0:
            print("  header of", f, "fails", out[-200:]); failed.append(f + ":?"); return False
        name = START.match(lines[i]).group(2)
        j = i
        while j < len(lines) and not re.search(r"\b(Qed|Defined|Admitted)\.", lines[j]): j += 1
        text = "\n".join(lines[i:j + 1])
        k = re.search(r"\bProof\.", text)
        failed.append(name)
        pl = n - i
        if k is None or text[:k.start()].count("\n") > pl or "Admitted." in text:
            print("  statement of", name, "fails"); lines[i:j + 1] = [""] * (j + 1 - i)
        else:
            new = text[:k.start()] + "Proof. Admitted."
            new += "\n" * (text.count("\n") - new.count("\n"))
            lines[i:j + 1] = new.split("\n")
        open(path, "w").write("\n".join(lines))
    return False

def run(mu):
    shutil.rmtree(WORK, ignore_errors=True)
    shutil.copytree(SRC, WORK)
    path = os.path.join(WORK, mu["file"])
    s = open(path).read()
    if s.count(mu["old"]) < 1:
        print("  PATTERN NOT FOUND", mu["name"]); return None
    i = s.find(mu["definition"]) if mu.get("after") is None else s.find(mu["after"])
    i = s.find(mu["old"], max(i, 0))
    assert i >= 0, mu["name"]
    s = s[:i] + mu["new"] + s[i + len(mu["old"]):]
    open(path, "w").write(s)
    failed = []
    dp = deps()
    ok = True
    fs = order(dp, mu["file"])
    for f in fs:
        ok = build(f, failed) and ok
    # uses: a word of a proof or definition that names something in the same file or in a file it imports
    bodies = {}
    for f in sorted(dp):
        cur = None
        txt = open(os.path.join(SRC, f)).read()
        txt = re.sub(r"\(\*(?:[^(*]|\((?!\*)|\*(?!\)))*\*\)", lambda c: re.sub(r"[^\n]", " ", c.group(0)), txt)
        for line in txt.split("\n"):
            mm = START.match(line) or LTAC.match(line)
            if mm: cur = (f, mm.group(2)); bodies.setdefault(cur, set())
            if cur: bodies[cur] |= set(re.findall(r"[\w']+", line))
            if re.search(r"\b(Qed|Defined)\.", line): cur = None
    above = {}
    def seen(f):
        if f not in above:
            above[f] = {f}
            for d in dp.get(f, ()): above[f] |= seen(d)
        return above[f]
    bad = {k for k in bodies if k[1] in failed and k[0] in fs}
    while True:
        new = {k for k in set(bodies) - bad if any(w == b and g in seen(k[0]) and (g, b) != k for (g, b) in bad for w in (b,) if b in bodies[k])}
        if not new: break
        bad |= new
    bad = {n for _, n in bad} | set(failed)
    dead = [p for p in failed if re.match(r"C\d\d+_", p)]
    dead += sorted(n for n in bad if re.match(r"C\d\d+_", n) and n not in dead)
    return failed, dead

if __name__ == "__main__":
    ns = {}
    exec(open(os.path.join(ROOT, "seeded", "mutants.py")).read(), ns)
    done = set()
    if os.path.exists(LOG):
        done = {json.loads(l).get("name") for l in open(LOG) if l.strip()}
    want = [a for a in sys.argv[1:] if a != "--new"]
    for mu in ns["M"]:
        if want and not any(mu["name"].startswith(w) for w in want): continue
        if ("--new" in sys.argv or not want) and mu["name"] in done: continue
        print(mu["name"], flush=True)
        r = run(mu)
        if r is None: continue
        failed, dead = r
        print("  failed:", dead, "| lemmas:", [x for x in failed if x not in dead], flush=True)
        rec = {"name": mu["name"], "definition": mu["file"] + ":" + mu["definition"], "edit": mu["edit"], "claim": mu["claim"],
               "failed": dead, "failed_lemmas": [x for x in failed if x not in dead], "tightened": mu.get("tightened", [])}
        with open(LOG, "a") as h: h.write(json.dumps(rec, ensure_ascii=False) + "\n")
