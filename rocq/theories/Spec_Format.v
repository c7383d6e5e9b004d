(** Specification of the container types for the file format: what a well-formed object of each class holds, and
    when two objects are the same up to the order in which a mapping lists its entries.  No reference to loaders or
    dumpers. *)
From Coq Require Import String List Bool ZArith Reals Permutation.
From Verif Require Import Lib_Py Model_Format.
Import ListNotations.
Open Scope string_scope. Open Scope list_scope.

Inductive ty :=
| TPlain        (* a bool, an int, a text, a NumPy number or array; not None *)
| TText         (* a non-empty text *)
| TBool
| TArr          (* a NumPy array *)
| TOptText      (* None or a non-empty text *)
| TOptNumPy     (* None, or a NumPy number or array *)
| TOptInt       (* None, an int or a NumPy number *)
| TNone
| TObj (c : string)       (* a well-formed object of class c *)
| TOptObj (c : string).   (* None or such an object *)

(** The fields of each class. *)
Definition solution_input_fields : list (string * ty) :=
  [("start", TPlain); ("stop", TPlain); ("taylor_stop_angle", TPlain); ("max_steps", TPlain); ("num_angles", TPlain);
   ("relative_tolerance", TPlain); ("absolute_tolerance", TPlain); ("γ", TPlain); ("nwalkers", TPlain);
   ("iterations", TPlain); ("threads", TPlain); ("target_velocity", TPlain); ("split_method", TPlain);
   ("v_rin_on_c_s", TPlain); ("v_a_on_c_s", TPlain); ("c_s_on_v_k", TPlain); ("η_O", TPlain); ("η_H", TPlain);
   ("η_A", TPlain); ("η_derivs", TPlain); ("jump_before_sonic", TOptNumPy); ("use_taylor_jump", TPlain);
   ("mcmc_vars", TOptObj "MCMCVars"); ("v_θ_sonic_crit", TOptNumPy); ("after_sonic", TOptNumPy);
   ("sonic_interp_size", TOptNumPy); ("interp_range", TOptInt); ("interp_slice", TOptObj "slice"); ("use_E_r", TPlain)].
Definition config_input_fields : list (string * ty) :=
  [("start", TPlain); ("stop", TPlain); ("taylor_stop_angle", TPlain); ("max_steps", TPlain); ("num_angles", TPlain);
   ("label", TPlain); ("relative_tolerance", TPlain); ("absolute_tolerance", TPlain); ("γ", TPlain);
   ("nwalkers", TPlain); ("iterations", TPlain); ("threads", TPlain); ("target_velocity", TPlain);
   ("split_method", TPlain); ("v_rin_on_c_s", TPlain); ("v_a_on_c_s", TPlain); ("c_s_on_v_k", TPlain);
   ("η_O", TPlain); ("η_H", TPlain); ("η_A", TPlain); ("η_derivs", TPlain); ("jump_before_sonic", TOptText);
   ("use_taylor_jump", TPlain); ("mcmc_vars", TOptText); ("v_θ_sonic_crit", TOptText); ("after_sonic", TOptText);
   ("sonic_interp_size", TOptText); ("interp_range", TOptText); ("interp_slice", TOptText); ("use_E_r", TPlain)].
Definition schema (c : string) : option (list (string * ty)) :=
  if String.eqb c "SolutionInput" then Some solution_input_fields
  else if String.eqb c "ConfigInput" then Some config_input_fields
  else if String.eqb c "MCMCVars" then Some [("with_v_r", TBool); ("with_v_a", TBool); ("with_v_k", TBool)]
  else if String.eqb c "slice" then Some [("start", TOptInt); ("stop", TOptInt); ("step", TOptInt)]
  else if String.eqb c "JacobianData" then Some [("jacobians", TArr); ("derivs", TArr); ("params", TArr); ("angles", TArr)]
  else if String.eqb c "InternalData" then Some
    [("derivs", TArr); ("params", TArr); ("angles", TArr); ("jacobian_data", TObj "JacobianData"); ("v_r_normal", TArr);
     ("v_φ_normal", TArr); ("ρ_normal", TArr); ("v_r_taylor", TArr); ("v_φ_taylor", TArr); ("ρ_taylor", TArr);
     ("problems", TObj "Problems")]
  else if String.eqb c "Solution" then Some
    [("solution_input", TObj "SolutionInput"); ("angles", TArr); ("solution", TArr); ("flag", TPlain);
     ("coordinate_system", TPlain); ("internal_data", TOptObj "InternalData");
     ("initial_conditions", TObj "InitialConditions"); ("t_roots", TOptNumPy); ("y_roots", TOptNumPy);
     ("sonic_point", TOptNumPy); ("sonic_point_values", TOptNumPy); ("derivatives", TNone);
     ("is_post_shock_only", TPlain)]
  else if String.eqb c "Run" then Some
    [("config_input", TObj "ConfigInput"); ("config_filename", TOptText); ("disc_solver_version", TOptText);
     ("float_type", TOptText); ("sonic_method", TText); ("time", TOptText); ("use_E_r", TBool);
     ("final_solution", TOptObj "Solution"); ("solutions", TObj "Solutions"); ("is_post_shock_only", TPlain);
     ("based_on_solution_filename", TOptText); ("based_on_solution_solution_name", TOptText)]
  else None.

Definition plain (v : val) : Prop :=
  match v with VBool _ | VInt _ | VText _ | VNum _ | VArr _ _ => True | _ => False end.
Definition numpy (v : val) : Prop := match v with VNum _ | VArr _ _ => True | _ => False end.
(** A diffusivity recorded beside the start vector agrees with the vector's component, and is not NaN. *)
Definition agrees (η : val) (x : option (option R)) : Prop :=
  exists r, x = Some (Some r) /\ (η = VNum (Some r) \/ exists z, η = VInt z /\ r = IZR z).

Inductive typed : ty -> val -> Prop :=
| t_plain : forall v, plain v -> typed TPlain v
| t_text : forall s, s <> "" -> typed TText (VText s)
| t_bool : forall b, typed TBool (VBool b)
| t_arr : forall s d, typed TArr (VArr s d)
| t_opt_text_none : typed TOptText VNone
| t_opt_text : forall s, s <> "" -> typed TOptText (VText s)
| t_opt_numpy_none : typed TOptNumPy VNone
| t_opt_numpy : forall v, numpy v -> typed TOptNumPy v
| t_opt_int_none : typed TOptInt VNone
| t_opt_int : forall z, typed TOptInt (VInt z)
| t_opt_int_num : forall x, typed TOptInt (VNum x)
| t_none : typed TNone VNone
| t_opt_obj_none : forall c, typed (TOptObj c) VNone
| t_opt_obj : forall c v, typed (TObj c) v -> typed (TOptObj c) v
| t_obj : forall c sch fs, schema c = Some sch ->
    Forall2 (fun ft kv => fst ft = fst kv /\ typed (snd ft) (snd kv)) sch fs -> typed (TObj c) (VObj c fs)
| t_problems : forall d, NoDup (map fst d) -> Forall (fun kv => exists l, snd kv = VTexts l) d ->
    typed (TObj "Problems") (VObj "Problems" d)
| t_solutions : forall d, NoDup (map fst d) -> Forall (fun kv => typed (TObj "Solution") (snd kv)) d ->
    typed (TObj "Solutions") (VObj "Solutions" d)
| t_initial : forall norm_kepler_sq η_O η_A η_H γ n data angles a_0,
    plain norm_kepler_sq -> plain γ -> plain a_0 -> typed TArr angles -> length data = n -> n <> 8 ->
    agrees η_O (nth_error data 8) -> agrees η_A (nth_error data 9) -> agrees η_H (nth_error data 10) ->
    typed (TObj "InitialConditions") (VObj "InitialConditions"
      [("norm_kepler_sq", norm_kepler_sq); ("η_O", η_O); ("η_A", η_A); ("η_H", η_H); ("γ", γ);
       ("init_con", VArr [n] data); ("angles", angles); ("a_0", a_0)]).

(** Equal, except that Problems and Solutions are mappings: the order of their entries does not matter. *)
Inductive same : val -> val -> Prop :=
| same_refl : forall v, same v v
| same_obj : forall c fs fs',
    Forall2 (fun a b => fst a = fst b /\ same (snd a) (snd b)) fs fs' -> same (VObj c fs) (VObj c fs')
| same_map : forall c fs g fs', c = "Problems" \/ c = "Solutions" ->
    Forall2 (fun a b => fst a = fst b /\ same (snd a) (snd b)) fs g -> Permutation g fs' ->
    same (VObj c fs) (VObj c fs').

(** An environment in which a group lists its own entries, in some order. *)
Definition lists_entries (E : env) : Prop := forall l, Permutation (e_order E l) l.

(** ** Older files *)
(** The file version in which each field of SolutionInput and ConfigInput appeared. *)
Definition since (f : string) : nat :=
  if String.eqb f "jump_before_sonic" then 2 else if String.eqb f "η_derivs" then 3 else if String.eqb f "γ" then 4
  else if String.eqb f "nwalkers" then 5 else if String.eqb f "iterations" then 5 else if String.eqb f "threads" then 5
  else if String.eqb f "target_velocity" then 6 else if String.eqb f "split_method" then 7
  else if String.eqb f "use_taylor_jump" then 8 else if String.eqb f "mcmc_vars" then 9
  else if String.eqb f "v_θ_sonic_crit" then 10 else if String.eqb f "after_sonic" then 11
  else if String.eqb f "interp_range" then 12 else if String.eqb f "sonic_interp_size" then 12
  else if String.eqb f "interp_slice" then 13 else if String.eqb f "use_E_r" then 14 else 1.
(** Fields kept as items of the group; the others are attributes.  interp_range was an attribute in version 12. *)
Definition kept_as_item (v : nat) (f : string) : bool :=
  str_in f ["jump_before_sonic"; "mcmc_vars"; "v_θ_sonic_crit"; "after_sonic"; "sonic_interp_size"; "interp_slice"]
  || (String.eqb f "interp_range" && Nat.leb 13 v).
(** A group written by version [v] for an object with field values [x]. *)
Definition written_by (v : nat) (sch : list (string * ty)) (x : string -> val)
  (attrs : list (string * val)) (items : list (string * h5)) : Prop :=
  forall f t, In (f, t) sch -> (since f <= v)%nat ->
    typed t (x f) /\
    if kept_as_item v f then exists h, dget f items = Some h /\ store (x f) = Ok h
    else dget f attrs = Some (x f).
(** What a field that did not exist yet is given. *)
Definition older_default_soln (f : string) : val :=
  if String.eqb f "split_method" then VText "v_θ_deriv"
  else if String.eqb f "use_taylor_jump" then VBool true
  else if String.eqb f "interp_range" then VInt 10
  else if String.eqb f "interp_slice" then slice_obj (VInt (-1000)) (VInt (-100)) VNone
  else VNone.
Definition older_default_conf (v : nat) (f : string) : val :=
  if String.eqb f "split_method" then (if Nat.eqb v 4 then VNone else VText "v_θ_deriv")
  else if String.eqb f "use_taylor_jump" then VText "True"
  else if String.eqb f "interp_range" then VText "10"
  else if String.eqb f "interp_slice" then VText "-1000,-100"
  else VNone.

(** [b] is [a] except that a missing (None) use_E_r is [u]. *)
Definition filled (u a b : val) : Prop :=
  exists c fs fs' old, a = VObj c fs /\ b = VObj c fs' /\ dget "use_E_r" fs = Some old /\
    dget "use_E_r" fs' = Some (match old with VNone => u | _ => old end) /\
    forall f, f <> "use_E_r" -> dget f fs' = dget f fs.
(** [b] is [a] except for its solution input, which is [filled]. *)
Definition soln_filled (u a b : val) : Prop :=
  exists c fs fs' si si', a = VObj c fs /\ b = VObj c fs' /\
    dget "solution_input" fs = Some si /\ dget "solution_input" fs' = Some si' /\ filled u si si' /\
    forall f, f <> "solution_input" -> dget f fs' = dget f fs.
