#!/usr/bin/env python3
"""Compare the arithmetic of the model with the arithmetic of the code, as syntax trees (nothing is run).

usage: compare_formulas.py [-v]

For every Definition in rocq/theories/Model_*.v whose comment cites lines of a Python file, each "let x := e in" and the
result are parsed; so is each "x = e" and "return e" in the cited lines of /repo.  A formula of the model matches if the same tree
occurs in the cited lines, bound to the same name (or returned).  Calls by keyword are compared by parameter name.  What the
parser cannot read (records, matches, numpy slicing) is skipped.  Prints the formulas with no match."""
import ast, glob, os, re, sys
ROOT = os.path.dirname(os.path.dirname(os.path.abspath(__file__)))
TH = os.path.join(ROOT, "rocq", "theories")
REPO = "/repo/src/disc_solver"
V = "-v" in sys.argv

# ---- Coq side
TOK = re.compile(r"\s*(?:(\d+)|([^\W\d][\w']*(?:\.[^\W\d][\w']*)*)|(:=|[()+\-*/^,]))")
KEY = {"let", "in", "if", "then", "else", "match", "fun", "with", "end", "forall"}
class Bad(Exception): pass
def tokens(s):
    out, i = [], 0
    s = s.strip()
    while i < len(s):
        m = TOK.match(s, i)
        if not m: raise Bad(s[i:i + 10])
        out.append(m.group(1) and ("n", m.group(1)) or m.group(2) and ("i", m.group(2)) or ("o", m.group(3)))
        i = m.end()
        while i < len(s) and s[i].isspace(): i += 1
    return out
class P:
    def __init__(self, toks): self.t, self.i = toks, 0
    def peek(self): return self.t[self.i] if self.i < len(self.t) else (None, None)
    def next(self): x = self.peek(); self.i += 1; return x
    def expr(self):
        a = self.term()
        while self.peek() in (("o", "+"), ("o", "-")):
            o = self.next()[1]; a = (o, a, self.term())
        return a
    def term(self):
        a = self.unary()
        while self.peek() in (("o", "*"), ("o", "/")):
            o = self.next()[1]; a = (o, a, self.unary())
        return a
    def unary(self):
        if self.peek() == ("o", "-"): self.next(); return ("neg", self.unary())
        return self.power()
    def power(self):
        a = self.app()
        if self.peek() == ("o", "^"): self.next(); return ("^", a, self.unary())
        return a
    def app(self):
        a = self.atom(); args = []
        while True:
            k, v = self.peek()
            if k == "n" or (k == "i" and v not in KEY) or (k, v) == ("o", "("): args.append(self.atom())
            else: break
        if not args: return a
        if a[0] != "name": raise Bad("app")
        return ("app", a[1], args)
    def atom(self):
        k, v = self.next()
        if k == "n": return ("num", float(v))
        if k == "i":
            if v in KEY: raise Bad(v)
            return ("name", v)
        if (k, v) == ("o", "("):
            e = self.expr()
            if self.next() != ("o", ")"): raise Bad(")")
            return e
        raise Bad(str(v))
def parse_coq(s):
    p = P(tokens(s)); e = p.expr()
    if p.i != len(p.t): raise Bad("rest")
    return e
DEF = re.compile(r"^Definition\s+([\w']+)((?:\s*\([^()]*:[^()]*(?:\([^()]*\)[^()]*)*\)|\s*\{[^}]*\})*)\s*(?::\s*([^=]*?))?\s*:=\s*(.*?)\.\s*$", re.S | re.M)
def binders(b):
    out = []
    for m in re.finditer(r"\(([^():]*):", b): out += m.group(1).split()
    return out
def strip_lets(body):
    """let x := e in ... -> [(x, e)], result"""
    lets = []
    body = re.sub(r"\(\*.*?\*\)", " ", body, flags=re.S).strip()
    while True:
        m = re.match(r"let\s+([\w']+)\s*(?::\s*\w+\s*)?:=", body)
        if not m: return lets, body
        depth, i = 1, m.end()
        for t in re.finditer(r"\blet\b|\bin\b", body[m.end():]):
            depth += 1 if t.group(0) == "let" else -1
            if depth == 0: break
        else: return lets, body
        j = m.end() + t.start()
        lets.append((m.group(1), body[m.end():j].strip()))
        body = body[m.end() + t.end():].strip()

# ---- Python side
OPS = {ast.Add: "+", ast.Sub: "-", ast.Mult: "*", ast.Div: "/", ast.Pow: "^"}
def conv(e):
    if isinstance(e, ast.BinOp) and type(e.op) in OPS: return (OPS[type(e.op)], conv(e.left), conv(e.right))
    if isinstance(e, ast.UnaryOp) and isinstance(e.op, ast.USub): return ("neg", conv(e.operand))
    if isinstance(e, ast.Constant) and isinstance(e.value, (int, float)): return ("num", float(e.value))
    if isinstance(e, ast.Name): return ("name", e.id)
    if isinstance(e, ast.Attribute):
        d = isinstance(e.value, ast.Attribute) and e.value.attr == "deriv"
        return ("name", ("deriv_of_" if d else "") + e.attr)
    if isinstance(e, ast.Subscript):
        k = e.slice
        if isinstance(k, ast.Tuple): k = k.elts[-1]
        if isinstance(k, ast.Attribute) and isinstance(k.value, ast.Name) and k.value.id == "ODEIndex" and isinstance(e.value, (ast.Name, ast.Attribute)):
            return ("app", conv(e.value)[1], [("name", "i" + k.attr)])
        return ("sub", ast.dump(e))
    if isinstance(e, ast.Call):
        f = conv(e.func)
        if f[0] != "name": return ("opaque", ast.dump(e))
        if f[1] == "float_type" and len(e.args) == 1: return conv(e.args[0])
        if any(k.arg is None for k in e.keywords): return ("opaque", ast.dump(e))
        if e.keywords and not e.args: return ("kw", f[1], {k.arg: conv(k.value) for k in e.keywords})
        return ("app", f[1], [conv(a) for a in e.args])
    return ("opaque", ast.dump(e))
PROJ = set()
SYN = {"np_tan": "tan", "np_sqrt": "sqrt", "np_sec": "sec", "PI": "pi", "π": "pi", "angle": "angles", "row": "solution", "y": "solution", "soln": "solution"}
def norm(e, params):
    k = e[0]
    if k == "num": return e
    if k == "name": return ("name", SYN.get(e[1], e[1]))
    if k in "+-*/": return (k, norm(e[1], params), norm(e[2], params))
    if k == "^": return (k, norm(e[1], params), norm(e[2], params))
    if k == "neg": return (k, norm(e[1], params))
    if k == "app":
        n = SYN.get(e[1], e[1])
        if n == "upd" and len(e[2]) == 3: return norm(e[2][1], params)                    # d[i] = e
        if n == "Rpower" and len(e[2]) == 2: return ("^",) + tuple(norm(a, params) for a in e[2])
        if n == "Some" and len(e[2]) == 1: return norm(e[2][0], params)
        if n.endswith("_num") and len(e[2]) == 2: n = n[:-4]                               # rad_to_scaled_num
        m = re.match(r"[a-z]{1,3}_(.+)$", n)
        if m and len(e[2]) == 1 and e[2][0][0] == "name" and n in PROJ: return norm(("name", ("deriv_of_" if n.startswith("vd_") else "") + m.group(1)), params)   # x.field
        if m and n in PROJ and len(e[2]) == 2 and e[2][0][0] == "name": return norm(("app", m.group(1), e[2][1:]), params)
        if n in params and len(params[n]) == len(e[2]) and len(e[2]) > 1:
            return ("kw", n, tuple(sorted((p, norm(a, params)) for p, a in zip(params[n], e[2]))))
        return ("app", n, tuple(norm(a, params) for a in e[2]))
    if k == "kw": return ("kw", SYN.get(e[1], e[1]), tuple(sorted((p, norm(a, params)) for p, a in e[2].items())))
    return e
def py_formulas(path, lo, hi):
    tree = ast.parse(open(path).read())
    out = []
    for n in ast.walk(tree):
        ln = getattr(n, "lineno", None)
        if ln is None or ln > hi or n.end_lineno < lo: continue
        if isinstance(n, ast.Assign) and len(n.targets) == 1:
            t = n.targets[0]
            if isinstance(t, ast.Name): out.append((t.id, conv(n.value)))
            elif isinstance(t, ast.Tuple) and isinstance(n.value, ast.Tuple):
                for a, b in zip(t.elts, n.value.elts):
                    if isinstance(a, ast.Name): out.append((a.id, conv(b)))
            else: out.append((None, conv(n.value)))
        elif isinstance(n, ast.Return) and n.value is not None: out.append((None, conv(n.value)))
        elif isinstance(n, (ast.BinOp, ast.UnaryOp, ast.Call)): out.append((None, conv(n)))
    return out

def files_named(name):
    return [p for p in glob.glob(REPO + "/**/*.py", recursive=True) if p.endswith("/" + name)]
def main():
    defs, params = [], {}
    for f in sorted(glob.glob(TH + "/Model_*.v")):
        txt = open(f).read()
        head = re.findall(r"([\w/]+\.py)", txt[:txt.find("From ")] if "From " in txt else txt[:2000])
        for r in re.finditer(r"Record\s.*?\{(.*?)\}\.", txt, re.S): PROJ.update(re.findall(r"([\w']+)\s*:", r.group(1)))
        for m in DEF.finditer(txt):
            before = txt[:m.start()].rstrip()
            com = ""
            j = before.rfind("(**")
            if j >= 0: com = txt[j:m.start()].split("*)")[0]
            params.setdefault(m.group(1), binders(m.group(2)))
            cites = [(c[0], int(c[1]), int(c[2] or c[1])) for c in re.findall(r"([\w/]+\.py):(\d+)(?:-(\d+))?", com)]
            cites += [(c[0], int(x[0]), int(x[1] or x[0])) for c in re.findall(r"([\w/]+\.py):([\d,\- and]+)", com) for x in re.findall(r"(\d+)(?:-(\d+))?", c[1])]
            if cites: cites += [(cites[0][0], int(x[0]), int(x[1] or x[0])) for c in re.findall(r"\(\*(?: \w+\.py:)?\s*([\d,\- and]+)[;*]", m.group(4))
                                for x in re.findall(r"(\d+)(?:-(\d+))?", c)]
            defs.append((os.path.basename(f), m.group(1), m.group(4), cites, head))
    good = bad = skip = 0
    for f, name, body, cites, head in defs:
        if not cites: continue
        py = []
        for c, lo, hi in cites:
            c = c.split("disc_solver/")[-1]
            ps = [p for p in files_named(c)]
            for p in ps: py += py_formulas(p, lo, hi)
        if not py: continue
        have = {(n, repr(norm(e, params))) for n, e in py}
        anon = {h for _, h in have}
        lets, res = strip_lets(body)
        for n, s in lets + [(None, res)]:
            try: e = parse_coq(s)
            except Bad: skip += 1; continue
            if e[0] in ("num", "name"): continue
            r = repr(norm(e, params))
            if (n, r) in have or r in anon: good += 1
            else:
                bad += 1; print(f"{f}: {name}: {n or 'result'} := {' '.join(s.split())[:150]}")
    print(f"{good} formulas match, {bad} do not, {skip} are not plain formulas")
main()
