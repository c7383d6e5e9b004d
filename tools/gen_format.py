#!/usr/bin/env python3
"""Writes ../rocq/theories/Model_FormatTables.v: the loaders, dumpers and attrs classes of
src/disc_solver/file_format as data, read from the source text with `ast` (the code is not run).
Usage: gen_format.py [/repo]"""
import ast, sys, os
REPO = sys.argv[1] if len(sys.argv) > 1 else "/repo"
D = REPO + "/src/disc_solver/file_format/"
OUT = os.path.join(os.path.dirname(os.path.abspath(__file__)), "..", "rocq", "theories", "Model_FormatTables.v")
def tree(n): return ast.parse(open(D + n, encoding="utf8").read())
def s(x): return '"%s"' % x
def sub(e):                      # group["k"] -> k
    if isinstance(e, ast.Subscript) and isinstance(e.value, ast.Name) and e.value.id == "group":
        return e.slice.value
def expr(e, env):
    if sub(e) is not None: return "LItem " + s(sub(e))
    if isinstance(e, ast.Subscript) and isinstance(e.value, ast.Attribute) and e.value.attr == "attrs":
        return "LAttr " + s(e.slice.value)
    if isinstance(e, ast.Subscript) and sub(e.value) is not None and e.slice.value == "data":
        return "LData " + s(sub(e.value))
    if isinstance(e, ast.Name): return env[e.id]
    if isinstance(e, ast.Constant) and e.value is None: return "LNone"
    if isinstance(e, ast.Constant) and isinstance(e.value, str): return "LText " + s(e.value)
    if isinstance(e, ast.Call) and isinstance(e.func, ast.Name):
        f = e.func.id
        if f == "ensure_fully_loaded": return "LFull " + s(sub(e.args[0]))
        if f == "_str_β_to_γ":
            a = expr(e.args[0], env); assert a.startswith("LAttr "); return "LβText " + a[6:]
        if f == "float" and e.args[0].value == "nan": return "LNan"
    if isinstance(e, ast.BinOp) and ast.unparse(e.left) == "5 / 4" and isinstance(e.op, ast.Sub):
        a = expr(e.right, env); assert a.startswith("LAttr "); return "LβNum " + a[6:]
    raise SystemExit("unhandled " + ast.unparse(e))
def show(items, ind="     "):
    out, line = [], ""
    for i in items:
        add = (line + "; " if line else "") + i
        if len(add) > 104 and line: out.append(line + ";"); line = i
        else: line = add
    if line: out.append(line)
    return "[ " + ("\n" + ind).join(out) + " ]" if items else "[]"
o = []
o.append('''(** GENERATED by tools/gen_format.py from the text of src/disc_solver/file_format/{_loaders,_dumpers,_containers}.py.
    Do not edit.

    One table per loader (keyword of the constructor call, expression read from the group), per dumper (attributes
    and items written, and the field each takes), and per attrs class (field, default, converter).  The functions
    that are not a single constructor call on group entries (Run versions 5 and 6, Problems, Solutions,
    InitialConditions.__init__) are written by hand in Model_Format.v; for Run the table lists the final call. *)
From Coq Require Import String List ZArith.
Import ListNotations.
Open Scope string_scope. Open Scope list_scope.

(** Right-hand sides in the loaders. *)
Inductive lexpr :=
| LAttr (k : string)      (* group.attrs[k] *)
| LItem (k : string)      (* group[k] *)
| LData (k : string)      (* group[k]["data"] *)
| LFull (k : string)      (* ensure_fully_loaded(group[k]) *)
| LOpt (k : string)       (* None if group[k] is None else group[k]["data"] *)
| LOptFull (k : string)   (* None if group[k] is None else ensure_fully_loaded(group[k]) *)
| LNone | LText (s : string) | LNan
| LβNum (k : string)      (* 5/4 - group.attrs[k] *)
| LβText (k : string).    (* _str_β_to_γ(group.attrs[k]) *)
(** Defaults and converters of attrs fields. *)
Inductive dflt := DRequired | DNone | DBool (b : bool) | DInt (z : Z) | DText (s : string)
| DSlice (a b : Z) | DFactory (c : string).
Inductive conv := CId | CEmptyToNone | CMcmcVars | CSlice.
''')
# loaders
names = {}
for f in tree("_loaders.py").body:
    if not isinstance(f, ast.FunctionDef): continue
    d = f.decorator_list[0]; cls = d.args[0].value; ver = d.keywords[0].value.value
    env = {}; call = None
    for st in f.body:
        if isinstance(st, ast.If) and sub(getattr(st.test, "left", None)) is not None:
            k = sub(st.test.left)
            assert isinstance(st.test.ops[0], ast.Is) and st.body[0].value.value is None
            e = expr(st.orelse[0].value, env)
            env[st.body[0].targets[0].id] = {"LData": "LOpt ", "LFull": "LOptFull "}[e.split()[0]] + s(k)
            assert e.split('"')[1] == k and st.orelse[0].targets[0].id == st.body[0].targets[0].id
        elif isinstance(st, ast.Assign) and isinstance(st.value, ast.Subscript):
            env[st.targets[0].id] = expr(st.value, env)
        elif isinstance(st, ast.Return) and isinstance(st.value, ast.Call): call = st.value
    if cls in ("Problems", "Solutions"): continue
    if cls == "slice": kws = [(n, expr(a, env)) for n, a in zip(("start", "stop", "step"), call.args)]
    else: kws = [(k.arg, expr(k.value, env)) for k in call.keywords]; assert call.func.id == cls and not call.args
    n = "load_%s_%d" % (cls, ver); names.setdefault(cls, []).append(ver)
    o.append("(** _loaders.py:%d-%d. *)" % (f.decorator_list[0].lineno, f.end_lineno))
    o.append("Definition %s : list (string * lexpr) :=\n   %s." % (n, show(["(%s, %s)" % (s(a), b) for a, b in kws])))
o.append("(** The loader registered for a class label and version. *)")
o.append("Definition loader (c : string) (v : nat) : option (list (string * lexpr)) :=")
for cls, vs in names.items():
    o.append('  if String.eqb c %s then match v with %s | _ => None end else' % (
        s(cls), " ".join("| %d => Some load_%s_%d" % (v, cls, v) for v in sorted(vs))))
o.append("  None.")
# dumpers
vers = {}
for f in tree("_dumpers.py").body:
    if not isinstance(f, ast.FunctionDef): continue
    d = f.decorator_list[0]; cls = d.args[1].value; ver = d.keywords[0].value.value; vers[cls] = ver
    assert d.args[0].id == cls
    if cls in ("Problems", "Solutions"): continue
    call = f.body[-1].value; at = []; it = []
    for k in call.keywords:
        if k.arg == "attrs": at = [(a.value, b.attr) for a, b in zip(k.value.keys, k.value.values)]
        else: it.append((k.arg, k.value.attr))
    o.append("(** _dumpers.py:%d-%d: attributes, then items. *)" % (f.decorator_list[0].lineno, f.end_lineno))
    o.append("Definition dump_%s : list (string * string) * list (string * string) :=\n  (%s,\n   %s)." % (
        cls, show(["(%s, %s)" % (s(a), s(b)) for a, b in at]), show(["(%s, %s)" % (s(a), s(b)) for a, b in it])))
o.append("Definition dumper (c : string) : option (list (string * string) * list (string * string)) :=")
for cls in vers:
    if cls not in ("Problems", "Solutions"): o.append("  if String.eqb c %s then Some dump_%s else" % (s(cls), cls))
o.append("  None.")
o.append("(** The version each dumper writes (the decorators in _dumpers.py). *)")
o.append("Definition dump_version (c : string) : nat :=")
for cls, v in vers.items(): o.append("  if String.eqb c %s then %d else" % (s(cls), v))
o.append("  0.")
# classes
cl = []
for c in tree("_containers.py").body:
    if not isinstance(c, ast.ClassDef): continue
    fs = []
    for st in c.body:
        if isinstance(st, ast.Assign) and isinstance(st.value, ast.Call) and ast.unparse(st.value.func) == "attr.ib":
            df, cv = "DRequired", "CId"
            for k in st.value.keywords:
                if k.arg == "converter":
                    cv = {"replace_empty_string": "CEmptyToNone", "mcmc_vars_str_to_obj": "CMcmcVars", "str_to_slice": "CSlice"}[k.value.id]
                else:
                    assert k.arg == "default"; v = k.value
                    if isinstance(v, ast.Constant):
                        x = v.value
                        df = ("DNone" if x is None else "DBool " + str(x).lower() if isinstance(x, bool)
                              else "DInt %d" % x if isinstance(x, int) else "DText " + s(x))
                    elif v.func.__class__ is ast.Name and v.func.id == "slice":
                        df = "DSlice (%s) (%s)" % tuple(ast.unparse(a) for a in v.args)
                    else: df = "DFactory " + s(ast.unparse(v.args[0]))
            fs.append((st.targets[0].id.lstrip("_"), df, cv))     # attrs drops the underscore of the keyword
    if fs:
        cl.append(c.name)
        o.append("(** _containers.py:%d-%d. *)" % (c.decorator_list[0].lineno, max(st.lineno for st in c.body if isinstance(st, ast.Assign))))
        o.append("Definition fields_%s : list (string * dflt * conv) :=\n   %s." % (c.name, show(["(%s, %s, %s)" % (s(a), b, d) for a, b, d in fs])))
o.append("(** slice is the Python built-in. *)")
o.append('Definition fields_slice : list (string * dflt * conv) := [ ("start", DRequired, CId); ("stop", DRequired, CId); ("step", DNone, CId) ].')
o.append("Definition class_fields (c : string) : option (list (string * dflt * conv)) :=")
for c in cl + ["slice"]: o.append("  if String.eqb c %s then Some fields_%s else" % (s(c), c))
o.append("  None.")
open(OUT, "w", encoding="utf8").write("\n".join(o) + "\n")
