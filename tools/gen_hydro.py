"""usage: gen_hydro.py hydrostatic|mod_hydro > Model_*.v"""
import sys; sys.path.insert(0,'/verif/tools')
import py2coq, ast
from py2coq import wrap, expr, stmt
which=sys.argv[1]
for q in ("solve/j_e_funcs.py", "solve/deriv_funcs.py", "solve/config.py", "solve/hydrostatic.py"): py2coq.load_sigs(q)
if which=="mod_hydro": py2coq.load_sigs("solve/mod_hydro.py")
path="solve/%s.py"%which; short=which+".py"
mod=ast.parse((py2coq.SRC/path).read_text())
fs={n.name:n for n in mod.body if isinstance(n,ast.FunctionDef)}
SKIP={"hydrostatic_define_conditions","mod_hydro_define_conditions","v_r_func_generator","fix_solution","ode_system","hydrostatic_solution","mod_hydro_solution","solution","solver"}
def funcs():
    return "\n\n".join(py2coq.function(n,short) for n in mod.body if isinstance(n,ast.FunctionDef) and n.name not in SKIP)
rhs=[n for n in ast.walk(fs["ode_system"]) if isinstance(n,ast.FunctionDef) and n.name=="rhs_equation"][0]
def branch_lets(body): return [l for s in body for l in stmt(s)]
def is_assign(s,name): return isinstance(s,ast.Assign) and isinstance(s.targets[0],ast.Name) and s.targets[0].id==name
READ='''  let B_r := params iB_r in
  let B_φ := params iB_φ in
  let B_θ := params iB_θ in
  let v_r := params iv_r in
  let v_φ := params iv_φ in
  let ρ := params iρ in
  let η_O := params iη_O in
  let η_A := params iη_A in
  let η_H := params iη_H in'''
WRITE='''  let d := zeros in
  let d := upd iB_r deriv_B_r d in
  let d := upd iB_φ deriv_B_φ d in
  let d := upd iB_θ deriv_B_θ d in'''
if which=="hydrostatic":
    body=rhs.body
    i=[k for k,s in enumerate(body) if is_assign(s,"B_mag")][0]
    j=[k for k,s in enumerate(body) if isinstance(s,ast.If) and isinstance(s.test,ast.Compare) and k>i][0]
    e=[k for k,s in enumerate(body) if is_assign(s,"deriv_v_φ")][0]
    pre=[l for s in body[i:j] for l in stmt(s)]
    post=[l for s in body[j+1:e+1] for l in stmt(s)]
    print('''(** The hydrostatic method.

    Models src/disc_solver/solve/hydrostatic.py (all functions).  The functions of lines 99-348 and the lets of the
    right-hand side are the output of tools/gen_hydro.py.  Floating point numbers are modelled as reals: a division by
    zero is 0, not nan.  Not modelled: logging, error texts, the tolerances (passed to the integrator unchanged). *)
From Coq Require Import String List Bool ZArith Reals.
From Verif Require Import Lib_Py Model_Index Model_Deriv Model_Ode Model_Midplane Model_Containers Model_Record.
From Verif Require Model_Solution.
Import ListNotations.
Open Scope R_scope. Open Scope list_scope.

(** hydrostatic.py:43-96.  [None] is SolverError("Input implies NaN"); the only source of NaN is the square root of v_φ. *)
Definition hydrostatic_define_conditions (inp : cond_input) : option conditions :=
  let ρ := 1 in
  let B_θ := 1 in
  let v_θ := 0 in
  let B_r := 0 in
  let B_φ := 0 in
  let v_r := - in_v_rin_on_c_s inp in
  let a_0 := in_v_a_on_c_s inp ^ 2 in
  let norm_kepler_sq := 1 / in_c_s_on_v_k inp ^ 2 in
  let η_O := in_η_O inp in
  let η_A := in_η_A inp in
  let η_H := in_η_H inp in
  let η_P := η_O + η_A in
  let η_perp_sq := η_P ^ 2 + η_H ^ 2 in
  match v_φ_boundary_func v_r η_H η_P norm_kepler_sq a_0 0 with
  | None => None
  | Some v_φ =>
      let init_con :=
        upd iη_H η_H (upd iη_A η_A (upd iη_O η_O (upd iρ ρ (upd iv_θ v_θ
        (upd iv_φ v_φ (upd iv_r v_r (upd iB_θ B_θ (upd iB_φ B_φ (upd iB_r B_r zeros))))))))) in
      let init_con :=
        if in_use_E_r inp then upd iE_r (E_r_boundary_func v_r v_φ η_P η_H η_perp_sq a_0) init_con
        else upd iB_φ_prime (B_φ_prime_boundary_func v_r v_φ a_0) init_con in
      let angles := map radians (linspace (in_start inp) (in_stop inp) (in_num_angles inp)) in
      Some (mk_conditions norm_kepler_sq a_0 init_con angles 0)
  end.
''')
    print(funcs())
    print('''
(** The arguments of ode_system (hydrostatic.py:351-354). *)
Record hydro_args := mk_hydro_args {
  ha_a_0 : R; ha_norm_kepler_sq : R; ha_init_con : vec; ha_θ_scale : R; ha_η_derivs : bool; ha_store_internal : bool;
  ha_no_v_deriv : bool }.
(** What a call of the right-hand side does: 1 with a problem recorded at that angle, 1 without, or 0 with the derivatives. *)
Inductive hydro_result := Hy_negative_density (θ : R) | Hy_negative_discriminant | Hy_ok (derivs : vec) (θ : R).
(** derivs[VELOCITY_INDEXES] = 0 (utils.py:94). *)
Definition zero_velocities (d : vec) : vec := upd iv_θ 0 (upd iv_φ 0 (upd iv_r 0 d)).

(** hydrostatic.py:372-553 ([rhs_equation] without the record of its calls). *)
Definition hydro_rhs (h : hydro_args) (x : R) (params : vec) : hydro_result :=
  let a_0 := ha_a_0 h in
  let norm_kepler_sq := ha_norm_kepler_sq h in
  let η_derivs := ha_η_derivs h in
  let η_O_0 := ha_init_con h iη_O in
  let η_A_0 := ha_init_con h iη_A in
  let η_H_0 := ha_init_con h iη_H in
  let θ := scaled_to_rad_num x (ha_θ_scale h) in
'''+READ+'''
  let B_φ_prime := params iB_φ_prime in
  if Rlt_dec ρ 0 then Hy_negative_density θ else
'''+"\n".join(pre)+'''
  if Rlt_dec (b ^ 2 - 4 * c) 0 then Hy_negative_discriminant else
'''+"\n".join(post)+"\n"+WRITE+'''
  let d := upd iv_r deriv_v_r d in
  let d := upd iv_φ deriv_v_φ d in
  let d := upd iρ deriv_ρ d in
  let d := upd iB_φ_prime dderiv_B_φ d in
  let d := upd iη_O deriv_η_O d in
  let d := upd iη_A deriv_η_A d in
  let d := upd iη_H deriv_η_H d in
  let d := upd iv_θ 0 d in
  let d := if ha_no_v_deriv h then zero_velocities d else d in
  Hy_ok d θ.
''')
else:
    body=rhs.body
    i=[k for k,s in enumerate(body) if is_assign(s,"B_mag")][0]
    flags=[k for k,s in enumerate(body) if isinstance(s,ast.If) and isinstance(s.test,ast.Name) and s.test.id=="use_E_r" and k>i]
    f1,f2=flags[0],flags[1]
    pre=[l for s in body[i:f1] for l in stmt(s)]
    E1=[s for s in body[f1].body if not isinstance(s.targets[0],ast.Subscript)]
    mid=[l for s in body[f1+1:f2] for l in stmt(s)]
    gen=[n for n in ast.walk(fs["v_r_func_generator"]) if isinstance(n,ast.FunctionDef) and n.name=="v_r_func"][0]
    vsig=py2coq.sig(gen)
    py2coq.SIGS["v_r_func"]=vsig
    cub="\n".join(l for s in gen.body[:-1] for l in stmt(s))
    ind=lambda ls:"\n".join("  "+l.replace("\n","\n  ") for l in ls)
    fix=[n for n in ast.walk(fs["fix_solution"]) if isinstance(n,ast.FunctionDef) and n.name=="single_solve"][0]
    fb=[s for s in fix.body if isinstance(s,(ast.Assign,ast.With)) and not (isinstance(s,ast.Assign) and (isinstance(s.targets[0],ast.Subscript) or isinstance(s.value,ast.Subscript)))]
    flets=[l for s in fb for l in stmt(s)]
    v_r_line=[k for k,l in enumerate(flets) if l.strip().startswith("let v_r :=")][0]
    track="let '(v_r, tracker) := "
    def tracked(ls):
        out=[]
        for l in ls:
            if l.strip().startswith("let v_r := v_r_func"):
                l=l.replace("let v_r := v_r_func","let '(v_r, root) := v_r_func solve_root root")
            out.append(l)
        return out
    e1=tracked([l for s in E1 for l in stmt(s)])
    print('''(** The modified hydrostatic method.

    Models src/disc_solver/solve/mod_hydro.py (all functions).  The functions of lines 105-307, the coefficients of the cubic
    and the lets of the right-hand side are the output of tools/gen_hydro.py.  Floating point numbers are modelled as
    reals: a division by zero is 0, not nan.  root_solver's CubicTracker is an argument: from the root it holds and the
    coefficients it answers a root, which it then holds.  Not modelled: logging, tolerances (passed unchanged). *)
From Coq Require Import String List Bool ZArith Reals.
From Verif Require Import Lib_Py Model_Index Model_Deriv Model_Ode Model_Midplane Model_Hydro.
From Verif Require Model_Solution.
Import ListNotations.
Open Scope R_scope. Open Scope list_scope.

(** mod_hydro.py:49-102.  No nan arises over the reals with nonzero denominators, so the check for it never fails. *)
Definition mod_hydro_define_conditions (inp : cond_input) : conditions :=
  let ρ := 1 in
  let B_θ := 1 in
  let v_θ := 0 in
  let B_r := 0 in
  let B_φ := 0 in
  let v_r := - in_v_rin_on_c_s inp in
  let a_0 := in_v_a_on_c_s inp ^ 2 in
  let norm_kepler_sq := 1 / in_c_s_on_v_k inp ^ 2 in
  let η_O := in_η_O inp in
  let η_A := in_η_A inp in
  let η_H := in_η_H inp in
  let η_P := η_O + η_A in
  let η_perp_sq := η_P ^ 2 + η_H ^ 2 in
  let v_φ := (2 * norm_kepler_sq - 5 / 2 + v_r * (a_0 / η_P - v_r / 2)) / (2 * sqrt norm_kepler_sq - v_r * η_H / (2 * η_P)) in
  let init_con :=
    upd iη_H η_H (upd iη_A η_A (upd iη_O η_O (upd iρ ρ (upd iv_θ v_θ
    (upd iv_φ v_φ (upd iv_r v_r (upd iB_θ B_θ (upd iB_φ B_φ (upd iB_r B_r zeros))))))))) in
  let init_con :=
    if in_use_E_r inp then upd iE_r (E_r_boundary_func v_r v_φ η_P η_H η_perp_sq a_0) init_con
    else upd iB_φ_prime (B_φ_prime_boundary_func v_r v_φ a_0) init_con in
  let angles := map radians (linspace (in_start inp) (in_stop inp) (in_num_angles inp)) in
  mk_conditions norm_kepler_sq a_0 init_con angles 0.
''')
    print(funcs())
    print('''
(** root_solver.CubicTracker.solve_root: held root -> coefficients, highest power first -> the root, which is then held. *)
Definition cubic_tracker := R -> R -> R -> R -> R -> R.
(** mod_hydro.py:241-282: the coefficients [a_3, a_2, a_1, a_0]; the last assignment rebinds the argument a_0. *)
Definition v_r_coefficients
'''+wrap("(%s : R) : R * R * R * R :="%" ".join(vsig),"  ")+"\n"+cub+'''
  (a_3, a_2, a_1, a_0).
(** mod_hydro.py:233-284: v_r and the root the tracker then holds. *)
Definition v_r_func (solve_root : cubic_tracker) (root : R)
'''+wrap("(%s : R) : R * R :="%" ".join(vsig),"  ")+"\n"+wrap("let '(a_3, a_2, a_1, a_0) := v_r_coefficients %s in"%" ".join(vsig),"  ")+'''
  let v_r := solve_root root a_3 a_2 a_1 a_0 in
  (v_r, v_r).

(** The arguments of ode_system (mod_hydro.py:371-374). *)
Record mod_hydro_args := mk_mod_hydro_args {
  ma_a_0 : R; ma_norm_kepler_sq : R; ma_init_con : vec; ma_θ_scale : R; ma_η_derivs : bool; ma_store_internal : bool;
  ma_use_E_r : bool }.

(** mod_hydro.py:325-363, [single_solve] inside [fix_solution]: the row as rewritten and the root the tracker then holds. *)
Definition single_solve (solve_root : cubic_tracker) (a_0 norm_kepler root : R) (params : vec) (θ : R) : vec * R :=
  let B_r := params iB_r in
  let B_φ := params iB_φ in
  let B_θ := params iB_θ in
  let ρ := params iρ in
  let η_O := params iη_O in
  let η_A := params iη_A in
  let η_H := params iη_H in
  let E_r := params iE_r in
'''+"\n".join(tracked(flets))+'''
  (upd iv_φ v_φ (upd iv_r v_r params), root).
(** mod_hydro.py:365-366: the rows in order, one tracker throughout. *)
Fixpoint fix_rows (solve_root : cubic_tracker) (a_0 norm_kepler root : R) (rows : list (R * vec)) : list vec :=
  match rows with
  | [] => []
  | (θ, params) :: rest =>
      let '(row, root) := single_solve solve_root a_0 norm_kepler root params θ in
      row :: fix_rows solve_root a_0 norm_kepler root rest
  end.
(** mod_hydro.py:310-368, [fix_solution] on the angles and states of the integrator (zip stops at the shorter: rows beyond are kept). *)
Definition fix_solution (solve_root : cubic_tracker) (m : mod_hydro_args) (t : list R) (y : list vec) : list vec :=
  if ma_use_E_r m then
    fix_rows solve_root (ma_a_0 m) (sqrt (ma_norm_kepler_sq m)) (ma_init_con m iv_r)
      (combine (map (fun x => scaled_to_rad_num x (ma_θ_scale m)) t) y) ++ skipn (List.length t) y
  else y.

(** What a call of the right-hand side does: 1 with a problem recorded, or 0 with the derivatives, the state array as it leaves it
    and the root its tracker then holds. *)
Inductive mod_hydro_result := Mh_negative_density (θ : R) | Mh_ok (derivs params : vec) (root θ : R).

(** mod_hydro.py:397-605 ([rhs_equation] without the record of its calls). *)
Definition mod_hydro_rhs (solve_root : cubic_tracker) (m : mod_hydro_args) (root x : R) (params : vec) : mod_hydro_result :=
  let a_0 := ma_a_0 m in
  let norm_kepler := sqrt (ma_norm_kepler_sq m) in
  let η_derivs := ma_η_derivs m in
  let η_O_0 := ma_init_con m iη_O in
  let η_A_0 := ma_init_con m iη_A in
  let η_H_0 := ma_init_con m iη_H in
  let θ := scaled_to_rad_num x (ma_θ_scale m) in
'''+READ+'''
  if Rlt_dec ρ 0 then Mh_negative_density θ else
'''+"\n".join(pre)+'''
  let '(v_r, v_φ, deriv_B_φ, params, root) :=
    if ma_use_E_r m then
      let E_r := params iE_r in
'''+ind(e1)+'''
      (v_r, v_φ, deriv_B_φ, upd iv_φ v_φ (upd iv_r v_r params), root)
    else (v_r, v_φ, params iB_φ_prime, params, root) in
'''+"\n".join(mid)+"\n"+WRITE+'''
  let d := upd iρ deriv_ρ d in
  let d := upd iη_O deriv_η_O d in
  let d := upd iη_A deriv_η_A d in
  let d := upd iη_H deriv_η_H d in
  let d := upd iv_θ 0 d in
  if ma_use_E_r m then
'''+ind(branch_lets(body[f2].body))+'''
    Mh_ok (upd iE_r deriv_E_r (upd iv_φ 0 (upd iv_r 0 d))) params root θ
  else
'''+ind(branch_lets(body[f2].orelse))+'''
    Mh_ok (upd iB_φ_prime dderiv_B_φ (upd iv_φ deriv_v_φ (upd iv_r deriv_v_r d))) params root θ.
''')
