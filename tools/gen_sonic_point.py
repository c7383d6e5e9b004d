import sys; sys.path.insert(0,'/verif/tools')
import py2coq, ast
for q in ("solve/j_e_funcs.py", "solve/deriv_funcs.py", "solve/sonic_point.py"): py2coq.load_sigs(q)
mod=ast.parse((py2coq.SRC/"solve/sonic_point.py").read_text())
fs={n.name:n for n in mod.body if isinstance(n,ast.FunctionDef)}
main=fs.pop("deriv_v_θ_sonic")
print('''(** v_θ' at the sonic point.

    Models src/disc_solver/solve/sonic_point.py (all functions); all but the last definition are the output of
    tools/py2coq.py.  Floating point numbers are modelled as reals. *)
From Coq Require Import Reals.
From Verif Require Import Model_Deriv.
Open Scope R_scope.
''')
order=[n.name for n in mod.body if isinstance(n,ast.FunctionDef) and n.name!="deriv_v_θ_sonic"]
for n in order: print(py2coq.function(fs[n],"sonic_point.py")+"\n")
body=[s for s in main.body if not (isinstance(s,ast.Expr))]
sg=[a for a in py2coq.sig(main) if a not in("η_derivs","E_r")]
lets=[]
call=body[0].body[0].value
lets.append(py2coq.wrap("let E_r := match E_r_given with Some E_r => E_r | None => %s end in"%py2coq.expr(call)[0],"  "))
for s in body[1:]:
    if isinstance(s,ast.Assign) and isinstance(s.targets[0],ast.Tuple) and s.value.func.id=="solve_quadratic": break
    lets+=py2coq.stmt(s)
print('''(** The results of solve_quadratic (root_solver), the pair it returns for a, b, c; complex results are not modelled. *)
Definition quadratic := R -> R -> R -> R * R.
(** sonic_point.py:163-172, the choice of a root; [None] is SolverError. *)
Definition choose_root (x : R * R) : option R :=
  let '(x1, x2) := x in
  if Rlt_dec 0 x1 then if Rlt_dec 0 x2 then None else Some x1
  else if Rlt_dec 0 x2 then Some x2
  else None.
(** sonic_point.py:18-161: the coefficients a, b, c of the quadratic; E_r and η_derivs are moved last; [E_r_given] = None is Python's None. *)
Definition sonic_coefficients
'''+py2coq.wrap("(%s : R) (E_r_given : option R) (η_derivs : bool) : R * R * R :="%" ".join(sg),"  ")+"\n"+"\n".join(lets)+'''
  (a, b, c).
(** sonic_point.py:18-172; v_θ defaults to 1. *)
Definition deriv_v_θ_sonic (solve_quadratic : quadratic)
'''+py2coq.wrap("(%s : R) (E_r_given : option R) (η_derivs : bool) : option R :="%" ".join(sg),"  ")+'''
  let '(a, b, c) := sonic_coefficients
'''+py2coq.wrap(" ".join(sg)+" E_r_given η_derivs in","    ")+'''
  choose_root (solve_quadratic a b c).''')
