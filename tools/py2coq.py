#!/usr/bin/env python3
"""Translate the expression-valued functions of a Python file to Gallina, mechanically.

usage: py2coq.py FILE NAME [SKIP,...]   (FILE relative to /repo/src/disc_solver; prints Definitions)

Only the shapes that occur are handled: keyword-only functions made of assignments and one return, with
numbers, names, + - * / **, unary minus, calls of translated functions and of tan, sqrt, sec.  Arguments keep
the order of the Python signature."""
import ast, sys, pathlib
SRC = pathlib.Path("/repo/src/disc_solver")
SIGS = {}
def sig(node):
    return [a.arg for a in node.args.args + node.args.kwonlyargs if a.arg not in ("tan", "sec", "sqrt")]
def load_sigs(path):
    for n in ast.walk(ast.parse((SRC / path).read_text())):
        if isinstance(n, ast.FunctionDef): SIGS[n.name] = sig(n)
P = {ast.Add: (50, "+"), ast.Sub: (50, "-"), ast.Mult: (40, "*"), ast.Div: (40, "/")}
def expr(e):
    """(text, level)"""
    if isinstance(e, ast.Constant):
        if isinstance(e.value, int): return str(e.value), 0
        raise ValueError(ast.dump(e))
    if isinstance(e, ast.Name): return e.id, 0
    if isinstance(e, ast.UnaryOp) and isinstance(e.op, ast.USub):
        t, l = expr(e.operand)
        return "- " + (t if l <= 35 else "(%s)" % t), 35
    if isinstance(e, ast.BinOp):
        if isinstance(e.op, ast.Pow):
            t, l = expr(e.left)
            assert isinstance(e.right, ast.Constant) and isinstance(e.right.value, int)
            return "%s ^ %d" % (t if l < 30 else "(%s)" % t, e.right.value), 30
        lev, op = P[type(e.op)]
        a, la = expr(e.left); b, lb = expr(e.right)
        return "%s %s %s" % (a if la <= lev else "(%s)" % a, op, b if lb < lev else "(%s)" % b), lev
    if isinstance(e, ast.Call):
        f = e.func.id
        if f in ("tan", "sqrt", "sec"):
            (x,) = e.args
            return "%s %s" % (f, atom(x)), 10
        kw = {k.arg: k.value for k in e.keywords}
        return f + " " + " ".join(atom(kw.pop(a)) for a in SIGS[f]) + ("" if not kw else 1 / 0), 10
    raise ValueError(ast.dump(e))
def atom(x):
    t, l = expr(x)
    return t if l == 0 else "(%s)" % t
def wrap(t, ind, width=150):
    out, line = [], ind
    for w in t.split(" "):
        if len(line) + len(w) + 1 > width and line.strip():
            out.append(line.rstrip()); line = ind
        line += w + " "
    out.append(line.rstrip())
    return "\n".join(out)
def stmt(s):
    """list of let lines"""
    if isinstance(s, ast.Assign):
        (t,) = s.targets
        if isinstance(t, ast.Name): return [wrap("let %s := %s in" % (t.id, expr(s.value)[0]), "  ")]
        names = [x.id for x in t.elts]
        if isinstance(s.value, ast.Tuple):
            return [wrap("let %s := %s in" % (n, expr(v)[0]), "  ") for n, v in zip(names, s.value.elts)]
        return [wrap("let '(%s) := %s in" % (", ".join(names), expr(s.value)[0]), "  ")]
    if isinstance(s, ast.If) and isinstance(s.test, ast.Name):
        other = {x.targets[0].id: x.value for x in s.orelse}
        out = []
        for x in s.body:
            (t,) = x.targets
            if t.id in other: out.append(wrap("let %s := if %s then %s else %s in" % (t.id, s.test.id, expr(x.value)[0], expr(other.pop(t.id))[0]), "  "))
            else: out += stmt(x)   # only read below in the same branch; pure
        assert not other
        return out
    if isinstance(s, ast.With): return [l for x in s.body for l in stmt(x)]
    raise ValueError(ast.dump(s)[:200])
def function(n, short, name=None):
    body = [s for s in n.body if not (isinstance(s, ast.Expr) and isinstance(s.value, ast.Constant))]
    lines = [l for s in body[:-1] for l in stmt(s)]
    assert isinstance(body[-1], ast.Return)
    lines.append(wrap(expr(body[-1].value)[0] + ".", "  "))
    return "(** %s:%d-%d. *)\nDefinition %s\n%s\n%s" % (
        short, n.lineno, n.end_lineno, name or n.name, wrap("(%s : R) : R :=" % " ".join(sig(n)), "  "), "\n".join(lines))
def main():
    path, short = sys.argv[1:3]
    skip = set(sys.argv[3].split(",")) if len(sys.argv) > 3 else set()
    for p in ("solve/j_e_funcs.py", "solve/deriv_funcs.py", "solve/hydrostatic.py", "solve/config.py", path): load_sigs(p)
    for n in ast.parse((SRC / path).read_text()).body:
        if isinstance(n, ast.FunctionDef) and n.name not in skip: print(function(n, short) + "\n")
if __name__ == "__main__": main()
