(** Running the hydrostatic and the mod_hydro method.

    Models src/disc_solver/solve/hydrostatic.py:357-371, 388-393, 522-554 (the record of the calls), 541-621
    ([hydrostatic_solution]), 624-672 ([solution]) and 675-685 ([solver]), and the same functions of
    src/disc_solver/solve/mod_hydro.py (lines 380-395, 420-425, 587-606, 609-678, 681-716, 719-731).

    The integrator is an argument, as in Model_Solution.  Not modelled: the tolerances and the step limit (passed to the
    integrator unchanged), logging.  The method's own callers pass no root function, no stopping angle, no scale and no
    no_v_deriv, and [solver] is modelled with those defaults; the checks on the root function are modelled. *)
From Coq Require Import String List Bool ZArith Reals.
From Verif Require Import Lib_Py Model_Index Model_Ode Model_Midplane Model_Containers Model_Record Model_Run.
From Verif Require Model_Solution.
From Verif Require Import Model_Hydro Model_ModHydro.
Import ListNotations.
Open Scope string_scope. Open Scope R_scope. Open Scope list_scope.

(** params_list.append, derivs_list.append, angles_list.append: hydrostatic.py:526-529, mod_hydro.py:593-596.  The six other
    lists are never appended to. *)
Definition id_append (θ : R) (params derivs : vec) (i : internal_data) : internal_data :=
  mk_id (id_derivs i ++ [to_row derivs]) (id_params i ++ [to_row params]) (id_angles i ++ [θ]) (id_jacobian_data i)
    (id_v_r_normal i) (id_v_φ_normal i) (id_ρ_normal i) (id_v_r_taylor i) (id_v_φ_taylor i) (id_ρ_taylor i) (id_problems i).
(** One call of hydrostatic.py's right-hand side: 388-393, 405-415, 522-537. *)
Definition hydro_record (str : R -> string) (h : hydro_args) (i : internal_data) (call : R * vec) : internal_data :=
  match hydro_rhs h (fst call) (snd call) with
  | Hy_negative_density θ => id_problem (KOther (str θ)) "negative density" i
  | Hy_negative_discriminant => i
  | Hy_ok derivs θ => id_append θ (snd call) derivs i
  end.
(** The internal data of a system after its calls: hydrostatic.py:363-371. *)
Definition hydro_internal (str : R -> string) (h : hydro_args) (calls : list (R * vec)) : option internal_data :=
  if ha_store_internal h then Some (fold_left (hydro_record str h) calls id_new) else None.
(** One call of mod_hydro.py's right-hand side, with the root its tracker holds: mod_hydro.py:420-425, 587-604. *)
Definition mod_hydro_record (str : R -> string) (solve_root : cubic_tracker) (m : mod_hydro_args) (s : internal_data * R) (call : R * vec)
  : internal_data * R :=
  match mod_hydro_rhs solve_root m (snd s) (fst call) (snd call) with
  | Mh_negative_density θ => (id_problem (KOther (str θ)) "negative density" (fst s), snd s)
  | Mh_ok derivs params root θ => (id_append θ params derivs (fst s), root)
  end.
(** mod_hydro.py:380-395. *)
Definition mod_hydro_internal (str : R -> string) (solve_root : cubic_tracker) (m : mod_hydro_args) (calls : list (R * vec)) : option internal_data :=
  if ma_store_internal m then Some (fst (fold_left (mod_hydro_record str solve_root m) calls (id_new, ma_init_con m iv_r))) else None.

(** What is passed to ode(...) and solve(...), for a system with arguments [A]. *)
Record hcall (A : Type) := mk_hcall {
  hc_system : A; hc_rootfn : option Model_Solution.root_fn; hc_nr_rootfns : option Z; hc_tstop : option R;
  hc_angles : list R; hc_init : vec }.
Arguments mk_hcall {A}. Arguments hc_system {A}. Arguments hc_rootfn {A}. Arguments hc_nr_rootfns {A}. Arguments hc_tstop {A}.
Arguments hc_angles {A}. Arguments hc_init {A}.
(** A computation with the integrations it started, in order. *)
Definition hrun (A X : Type) := (list (hcall A) * res X)%type.

(** hydrostatic.py:549-555, mod_hydro.py:617-623. *)
Definition root_options (root_func : option Model_Solution.root_fn) (root_func_args : option Z)
  : res (option Model_Solution.root_fn * option Z) :=
  match root_func with
  | None => Ok (None, None)
  | Some f => match root_func_args with Some n => Ok (Some f, Some n) | None => Raise SolverError end
  end.
(** hydrostatic.py:541-621 and mod_hydro.py:609-678 without fix_solution.  [internal]: the internal data after the calls of the run. *)
Definition integrate {A} (I : hcall A -> Model_Solution.cvode_run) (internal : list (R * vec) -> option internal_data) (system : A)
  (θ_scale : R) (root_func : option Model_Solution.root_fn) (root_func_args : option Z) (tstop : option R) (angles : list R) (init : vec)
  : hrun A (Model_Solution.cvode_run * option internal_data) :=
  match root_options root_func root_func_args with
  | Raise e => ([], Raise e)
  | Ok (f, n) =>
      let call := mk_hcall system f n (rad_to_scaled tstop θ_scale) angles init in
      let soln := I call in
      ([call],
       match Model_Solution.cr_end soln with
       | Model_Solution.Failed => if (Model_Solution.cr_flag soln =? Model_Solution.TOO_CLOSE)%Z then Raise OtherError
                                  else Ok (soln, internal (Model_Solution.cr_calls soln))
       | _ => Ok (soln, internal (Model_Solution.cr_calls soln))
       end)
  end.
(** Solution(...): hydrostatic.py:661-672, mod_hydro.py:705-716.  [y]: soln.values.y. *)
Definition assemble (soln : Model_Solution.cvode_run) (y : list vec) (internal : option internal_data) (θ_scale : R) : Model_Solution.soln_t :=
  Model_Solution.mk_soln (Model_Solution.cr_flag soln) internal (Model_Solution.to_rad θ_scale (Model_Solution.cr_t soln)) y
    (match Model_Solution.cr_root_t soln with Some t => Some (Model_Solution.to_rad θ_scale t) | None => None end)
    (Model_Solution.cr_root_y soln).

(** hydrostatic.py:624-672 with no_v_deriv False.  The array handed to the integrator is the one of the conditions. *)
Definition hydro_solution (I : hcall hydro_args -> Model_Solution.cvode_run) (str : R -> string) (use_E_r η_derivs store_internal : bool)
  (ic : conditions) (root_func : option Model_Solution.root_fn) (root_func_args : option Z) (tstop : option R) (θ_scale : R)
  : hrun hydro_args Model_Solution.soln_t :=
  if use_E_r then ([], Raise SolverError) else
  let system := mk_hydro_args (c_a_0 ic) (c_norm_kepler_sq ic) (c_init_con ic) θ_scale η_derivs store_internal false in
  let '(calls, r) := integrate I (hydro_internal str system) system θ_scale root_func root_func_args tstop (c_angles ic) (c_init_con ic) in
  (calls, let! s := r in Ok (assemble (fst s) (Model_Solution.cr_y (fst s)) (snd s) θ_scale)).
(** mod_hydro.py:681-716.  fix_solution rewrites the rows of soln.values.y (mod_hydro.py:672-675). *)
Definition mod_hydro_soln (I : hcall mod_hydro_args -> Model_Solution.cvode_run) (solve_root : cubic_tracker) (str : R -> string)
  (use_E_r η_derivs store_internal : bool) (ic : conditions) (root_func : option Model_Solution.root_fn) (root_func_args : option Z)
  (tstop : option R) (θ_scale : R) : hrun mod_hydro_args Model_Solution.soln_t :=
  let system := mk_mod_hydro_args (c_a_0 ic) (c_norm_kepler_sq ic) (c_init_con ic) θ_scale η_derivs store_internal use_E_r in
  let '(calls, r) := integrate I (mod_hydro_internal str solve_root system) system θ_scale root_func root_func_args tstop (c_angles ic) (c_init_con ic) in
  (calls, let! s := r in
          Ok (assemble (fst s) (fix_solution solve_root system (Model_Solution.cr_t (fst s)) (Model_Solution.cr_y (fst s))) (snd s) θ_scale)).

(** run.solutions["0"] = …; run.final_solution = run.solutions["0"]; return True: hydrostatic.py:683-685, mod_hydro.py:729-731.
    The run is returned as it is when the call ends, whether or not it raises. *)
Definition store {Inf} (r : run Model_Solution.soln_t Inf) (s : Model_Solution.soln_t) : run Model_Solution.soln_t Inf * res bool :=
  let r := with_solutions r (dset "0" s (r_solutions r)) in
  match dgetitem "0" (r_solutions r) with
  | Raise e => (r, Raise e)
  | Ok s => match set_final r (Some s) with Ok r => (r, Ok true) | Raise e => (r, Raise e) end
  end.
(** hydrostatic.py:675-685. *)
Definition hydro_solver {Inf} (I : hcall hydro_args -> Model_Solution.cvode_run) (str : R -> string) (inp : cond_input) (η_derivs store_internal : bool)
  (r : run Model_Solution.soln_t Inf) : list (hcall hydro_args) * (run Model_Solution.soln_t Inf * res bool) :=
  match hydrostatic_define_conditions inp with
  | None => ([], (r, Raise SolverError))
  | Some ic =>
      let '(calls, s) := hydro_solution I str (in_use_E_r inp) η_derivs store_internal ic None None None 1 in
      (calls, match s with Ok s => store r s | Raise e => (r, Raise e) end)
  end.
(** mod_hydro.py:719-731. *)
Definition mod_hydro_solver {Inf} (I : hcall mod_hydro_args -> Model_Solution.cvode_run) (solve_root : cubic_tracker) (str : R -> string)
  (inp : cond_input) (η_derivs store_internal : bool) (r : run Model_Solution.soln_t Inf)
  : list (hcall mod_hydro_args) * (run Model_Solution.soln_t Inf * res bool) :=
  let '(calls, s) := mod_hydro_soln I solve_root str (in_use_E_r inp) η_derivs store_internal (mod_hydro_define_conditions inp) None None None 1 in
  (calls, match s with Ok s => store r s | Raise e => (r, Raise e) end).
