(** GENERATED by tools/gen_format.py from the text of src/disc_solver/file_format/{_loaders,_dumpers,_containers}.py.
    Do not edit.

    One table per loader (keyword of the constructor call, expression read from the group), per dumper (attributes
    and items written, and the field each takes), and per attrs class (field, default, converter).  The functions
    that are not a single constructor call on group entries (Run versions 5 and 6, Problems, Solutions,
    InitialConditions.__init__) are written by hand in Model_Format.v; for Run the table lists the final call. *)
From Coq Require Import String List ZArith.
Import ListNotations.
Open Scope string_scope. Open Scope list_scope.

(** Right-hand sides in the loaders. *)
Inductive lexpr :=
| LAttr (k : string)      (* group.attrs[k] *)
| LItem (k : string)      (* group[k] *)
| LData (k : string)      (* group[k]["data"] *)
| LFull (k : string)      (* ensure_fully_loaded(group[k]) *)
| LOpt (k : string)       (* None if group[k] is None else group[k]["data"] *)
| LOptFull (k : string)   (* None if group[k] is None else ensure_fully_loaded(group[k]) *)
| LNone | LText (s : string) | LNan
| LβNum (k : string)      (* 5/4 - group.attrs[k] *)
| LβText (k : string).    (* _str_β_to_γ(group.attrs[k]) *)
(** Defaults and converters of attrs fields. *)
Inductive dflt := DRequired | DNone | DBool (b : bool) | DInt (z : Z) | DText (s : string)
| DSlice (a b : Z) | DFactory (c : string).
Inductive conv := CId | CEmptyToNone | CMcmcVars | CSlice.

(** _loaders.py:14-27. *)
Definition load_InternalData_1 : list (string * lexpr) :=
   [ ("derivs", LData "derivs"); ("params", LData "params"); ("angles", LData "angles");
     ("v_r_normal", LData "v_r_normal"); ("v_φ_normal", LData "v_φ_normal"); ("ρ_normal", LData "ρ_normal");
     ("v_r_taylor", LData "v_r_taylor"); ("v_φ_taylor", LData "v_φ_taylor"); ("ρ_taylor", LData "ρ_taylor");
     ("jacobians", LNone) ].
(** _loaders.py:30-44. *)
Definition load_InternalData_2 : list (string * lexpr) :=
   [ ("derivs", LData "derivs"); ("params", LData "params"); ("angles", LData "angles");
     ("v_r_normal", LData "v_r_normal"); ("v_φ_normal", LData "v_φ_normal"); ("ρ_normal", LData "ρ_normal");
     ("v_r_taylor", LData "v_r_taylor"); ("v_φ_taylor", LData "v_φ_taylor"); ("ρ_taylor", LData "ρ_taylor");
     ("problems", LItem "problems"); ("jacobians", LNone) ].
(** _loaders.py:47-61. *)
Definition load_InternalData_3 : list (string * lexpr) :=
   [ ("derivs", LData "derivs"); ("params", LData "params"); ("angles", LData "angles");
     ("v_r_normal", LData "v_r_normal"); ("v_φ_normal", LData "v_φ_normal"); ("ρ_normal", LData "ρ_normal");
     ("v_r_taylor", LData "v_r_taylor"); ("v_φ_taylor", LData "v_φ_taylor"); ("ρ_taylor", LData "ρ_taylor");
     ("problems", LItem "problems"); ("jacobian_data", LItem "jacobian_data") ].
(** _loaders.py:64-75. *)
Definition load_InitialConditions_3 : list (string * lexpr) :=
   [ ("norm_kepler_sq", LAttr "norm_kepler_sq"); ("a_0", LAttr "a_0"); ("η_O", LAttr "η_O");
     ("η_A", LAttr "η_A"); ("η_H", LAttr "η_H"); ("γ", LAttr "γ"); ("init_con", LAttr "init_con");
     ("angles", LData "angles") ].
(** _loaders.py:78-89. *)
Definition load_InitialConditions_2 : list (string * lexpr) :=
   [ ("norm_kepler_sq", LAttr "norm_kepler_sq"); ("a_0", LAttr "a_0"); ("η_O", LAttr "η_O");
     ("η_A", LAttr "η_A"); ("η_H", LAttr "η_H"); ("γ", LβNum "β"); ("init_con", LAttr "init_con");
     ("angles", LData "angles") ].
(** _loaders.py:92-103. *)
Definition load_InitialConditions_1 : list (string * lexpr) :=
   [ ("norm_kepler_sq", LAttr "norm_kepler_sq"); ("a_0", LNan); ("η_O", LAttr "η_O"); ("η_A", LAttr "η_A");
     ("η_H", LAttr "η_H"); ("γ", LβNum "β"); ("init_con", LAttr "init_con"); ("angles", LData "angles") ].
(** _loaders.py:106-130. *)
Definition load_Solution_1 : list (string * lexpr) :=
   [ ("flag", LAttr "flag"); ("coordinate_system", LAttr "coordinate_system"); ("angles", LData "angles");
     ("solution", LData "solution"); ("internal_data", LItem "internal_data");
     ("initial_conditions", LItem "initial_conditions"); ("solution_input", LItem "solution_input");
     ("t_roots", LOpt "t_roots"); ("y_roots", LOpt "y_roots"); ("derivatives", LNone); ("sonic_point", LNone);
     ("sonic_point_values", LNone) ].
(** _loaders.py:133-157. *)
Definition load_Solution_2 : list (string * lexpr) :=
   [ ("flag", LAttr "flag"); ("coordinate_system", LAttr "coordinate_system"); ("angles", LData "angles");
     ("solution", LData "solution"); ("internal_data", LItem "internal_data");
     ("initial_conditions", LItem "initial_conditions"); ("solution_input", LItem "solution_input");
     ("t_roots", LOpt "t_roots"); ("y_roots", LOpt "y_roots"); ("derivatives", LItem "derivatives");
     ("sonic_point", LNone); ("sonic_point_values", LNone) ].
(** _loaders.py:160-193. *)
Definition load_Solution_3 : list (string * lexpr) :=
   [ ("flag", LAttr "flag"); ("coordinate_system", LAttr "coordinate_system"); ("angles", LData "angles");
     ("solution", LData "solution"); ("internal_data", LItem "internal_data");
     ("initial_conditions", LItem "initial_conditions"); ("solution_input", LItem "solution_input");
     ("t_roots", LOpt "t_roots"); ("y_roots", LOpt "y_roots"); ("sonic_point", LOpt "sonic_point");
     ("sonic_point_values", LOpt "sonic_point_values"); ("derivatives", LItem "derivatives") ].
(** _loaders.py:196-230. *)
Definition load_Solution_4 : list (string * lexpr) :=
   [ ("flag", LAttr "flag"); ("coordinate_system", LAttr "coordinate_system"); ("angles", LData "angles");
     ("solution", LData "solution"); ("internal_data", LItem "internal_data");
     ("initial_conditions", LItem "initial_conditions"); ("solution_input", LItem "solution_input");
     ("t_roots", LOpt "t_roots"); ("y_roots", LOpt "y_roots"); ("sonic_point", LOpt "sonic_point");
     ("sonic_point_values", LOpt "sonic_point_values"); ("derivatives", LItem "derivatives");
     ("is_post_shock_only", LAttr "is_post_shock_only") ].
(** _loaders.py:233-253. *)
Definition load_ConfigInput_1 : list (string * lexpr) :=
   [ ("start", LAttr "start"); ("stop", LAttr "stop"); ("taylor_stop_angle", LAttr "taylor_stop_angle");
     ("max_steps", LAttr "max_steps"); ("num_angles", LAttr "num_angles"); ("label", LAttr "label");
     ("relative_tolerance", LAttr "relative_tolerance"); ("absolute_tolerance", LAttr "absolute_tolerance");
     ("split_method", LText "v_θ_deriv"); ("γ", LβText "β"); ("v_rin_on_c_s", LAttr "v_rin_on_c_s");
     ("v_a_on_c_s", LAttr "v_a_on_c_s"); ("c_s_on_v_k", LAttr "c_s_on_v_k"); ("η_O", LAttr "η_O");
     ("η_H", LAttr "η_H"); ("η_A", LAttr "η_A"); ("use_E_r", LNone) ].
(** _loaders.py:256-277. *)
Definition load_ConfigInput_2 : list (string * lexpr) :=
   [ ("start", LAttr "start"); ("stop", LAttr "stop"); ("taylor_stop_angle", LAttr "taylor_stop_angle");
     ("max_steps", LAttr "max_steps"); ("num_angles", LAttr "num_angles"); ("label", LAttr "label");
     ("relative_tolerance", LAttr "relative_tolerance"); ("absolute_tolerance", LAttr "absolute_tolerance");
     ("split_method", LText "v_θ_deriv"); ("γ", LβText "β"); ("v_rin_on_c_s", LAttr "v_rin_on_c_s");
     ("v_a_on_c_s", LAttr "v_a_on_c_s"); ("c_s_on_v_k", LAttr "c_s_on_v_k"); ("η_O", LAttr "η_O");
     ("η_H", LAttr "η_H"); ("η_A", LAttr "η_A"); ("jump_before_sonic", LItem "jump_before_sonic");
     ("use_E_r", LNone) ].
(** _loaders.py:280-302. *)
Definition load_ConfigInput_3 : list (string * lexpr) :=
   [ ("start", LAttr "start"); ("stop", LAttr "stop"); ("taylor_stop_angle", LAttr "taylor_stop_angle");
     ("max_steps", LAttr "max_steps"); ("num_angles", LAttr "num_angles"); ("label", LAttr "label");
     ("relative_tolerance", LAttr "relative_tolerance"); ("absolute_tolerance", LAttr "absolute_tolerance");
     ("split_method", LText "v_θ_deriv"); ("γ", LβText "β"); ("v_rin_on_c_s", LAttr "v_rin_on_c_s");
     ("v_a_on_c_s", LAttr "v_a_on_c_s"); ("c_s_on_v_k", LAttr "c_s_on_v_k"); ("η_O", LAttr "η_O");
     ("η_H", LAttr "η_H"); ("η_A", LAttr "η_A"); ("jump_before_sonic", LItem "jump_before_sonic");
     ("η_derivs", LAttr "η_derivs"); ("use_E_r", LNone) ].
(** _loaders.py:305-331. *)
Definition load_ConfigInput_4 : list (string * lexpr) :=
   [ ("start", LAttr "start"); ("stop", LAttr "stop"); ("taylor_stop_angle", LAttr "taylor_stop_angle");
     ("max_steps", LAttr "max_steps"); ("num_angles", LAttr "num_angles"); ("label", LAttr "label");
     ("relative_tolerance", LAttr "relative_tolerance"); ("absolute_tolerance", LAttr "absolute_tolerance");
     ("γ", LAttr "γ"); ("v_rin_on_c_s", LAttr "v_rin_on_c_s"); ("v_a_on_c_s", LAttr "v_a_on_c_s");
     ("c_s_on_v_k", LAttr "c_s_on_v_k"); ("η_O", LAttr "η_O"); ("η_H", LAttr "η_H"); ("η_A", LAttr "η_A");
     ("jump_before_sonic", LItem "jump_before_sonic"); ("η_derivs", LAttr "η_derivs"); ("nwalkers", LNone);
     ("iterations", LNone); ("threads", LNone); ("target_velocity", LNone); ("split_method", LNone);
     ("use_E_r", LNone) ].
(** _loaders.py:334-359. *)
Definition load_ConfigInput_5 : list (string * lexpr) :=
   [ ("start", LAttr "start"); ("stop", LAttr "stop"); ("taylor_stop_angle", LAttr "taylor_stop_angle");
     ("max_steps", LAttr "max_steps"); ("num_angles", LAttr "num_angles"); ("label", LAttr "label");
     ("relative_tolerance", LAttr "relative_tolerance"); ("absolute_tolerance", LAttr "absolute_tolerance");
     ("γ", LAttr "γ"); ("nwalkers", LAttr "nwalkers"); ("iterations", LAttr "iterations");
     ("threads", LAttr "threads"); ("split_method", LText "v_θ_deriv");
     ("v_rin_on_c_s", LAttr "v_rin_on_c_s"); ("v_a_on_c_s", LAttr "v_a_on_c_s");
     ("c_s_on_v_k", LAttr "c_s_on_v_k"); ("η_O", LAttr "η_O"); ("η_H", LAttr "η_H"); ("η_A", LAttr "η_A");
     ("jump_before_sonic", LItem "jump_before_sonic"); ("η_derivs", LAttr "η_derivs"); ("use_E_r", LNone) ].
(** _loaders.py:362-388. *)
Definition load_ConfigInput_6 : list (string * lexpr) :=
   [ ("start", LAttr "start"); ("stop", LAttr "stop"); ("taylor_stop_angle", LAttr "taylor_stop_angle");
     ("max_steps", LAttr "max_steps"); ("num_angles", LAttr "num_angles"); ("label", LAttr "label");
     ("relative_tolerance", LAttr "relative_tolerance"); ("absolute_tolerance", LAttr "absolute_tolerance");
     ("γ", LAttr "γ"); ("nwalkers", LAttr "nwalkers"); ("iterations", LAttr "iterations");
     ("threads", LAttr "threads"); ("target_velocity", LAttr "target_velocity");
     ("split_method", LText "v_θ_deriv"); ("v_rin_on_c_s", LAttr "v_rin_on_c_s");
     ("v_a_on_c_s", LAttr "v_a_on_c_s"); ("c_s_on_v_k", LAttr "c_s_on_v_k"); ("η_O", LAttr "η_O");
     ("η_H", LAttr "η_H"); ("η_A", LAttr "η_A"); ("jump_before_sonic", LItem "jump_before_sonic");
     ("η_derivs", LAttr "η_derivs"); ("use_E_r", LNone) ].
(** _loaders.py:391-417. *)
Definition load_ConfigInput_7 : list (string * lexpr) :=
   [ ("start", LAttr "start"); ("stop", LAttr "stop"); ("taylor_stop_angle", LAttr "taylor_stop_angle");
     ("max_steps", LAttr "max_steps"); ("num_angles", LAttr "num_angles"); ("label", LAttr "label");
     ("relative_tolerance", LAttr "relative_tolerance"); ("absolute_tolerance", LAttr "absolute_tolerance");
     ("γ", LAttr "γ"); ("nwalkers", LAttr "nwalkers"); ("iterations", LAttr "iterations");
     ("threads", LAttr "threads"); ("target_velocity", LAttr "target_velocity");
     ("split_method", LAttr "split_method"); ("v_rin_on_c_s", LAttr "v_rin_on_c_s");
     ("v_a_on_c_s", LAttr "v_a_on_c_s"); ("c_s_on_v_k", LAttr "c_s_on_v_k"); ("η_O", LAttr "η_O");
     ("η_H", LAttr "η_H"); ("η_A", LAttr "η_A"); ("jump_before_sonic", LItem "jump_before_sonic");
     ("η_derivs", LAttr "η_derivs"); ("use_E_r", LNone) ].
(** _loaders.py:420-447. *)
Definition load_ConfigInput_8 : list (string * lexpr) :=
   [ ("start", LAttr "start"); ("stop", LAttr "stop"); ("taylor_stop_angle", LAttr "taylor_stop_angle");
     ("max_steps", LAttr "max_steps"); ("num_angles", LAttr "num_angles"); ("label", LAttr "label");
     ("relative_tolerance", LAttr "relative_tolerance"); ("absolute_tolerance", LAttr "absolute_tolerance");
     ("γ", LAttr "γ"); ("nwalkers", LAttr "nwalkers"); ("iterations", LAttr "iterations");
     ("threads", LAttr "threads"); ("target_velocity", LAttr "target_velocity");
     ("split_method", LAttr "split_method"); ("v_rin_on_c_s", LAttr "v_rin_on_c_s");
     ("v_a_on_c_s", LAttr "v_a_on_c_s"); ("c_s_on_v_k", LAttr "c_s_on_v_k"); ("η_O", LAttr "η_O");
     ("η_H", LAttr "η_H"); ("η_A", LAttr "η_A"); ("jump_before_sonic", LItem "jump_before_sonic");
     ("η_derivs", LAttr "η_derivs"); ("use_taylor_jump", LAttr "use_taylor_jump"); ("use_E_r", LNone) ].
(** _loaders.py:450-478. *)
Definition load_ConfigInput_9 : list (string * lexpr) :=
   [ ("start", LAttr "start"); ("stop", LAttr "stop"); ("taylor_stop_angle", LAttr "taylor_stop_angle");
     ("max_steps", LAttr "max_steps"); ("num_angles", LAttr "num_angles"); ("label", LAttr "label");
     ("relative_tolerance", LAttr "relative_tolerance"); ("absolute_tolerance", LAttr "absolute_tolerance");
     ("γ", LAttr "γ"); ("nwalkers", LAttr "nwalkers"); ("iterations", LAttr "iterations");
     ("threads", LAttr "threads"); ("target_velocity", LAttr "target_velocity");
     ("split_method", LAttr "split_method"); ("v_rin_on_c_s", LAttr "v_rin_on_c_s");
     ("v_a_on_c_s", LAttr "v_a_on_c_s"); ("c_s_on_v_k", LAttr "c_s_on_v_k"); ("η_O", LAttr "η_O");
     ("η_H", LAttr "η_H"); ("η_A", LAttr "η_A"); ("jump_before_sonic", LItem "jump_before_sonic");
     ("η_derivs", LAttr "η_derivs"); ("use_taylor_jump", LAttr "use_taylor_jump");
     ("mcmc_vars", LItem "mcmc_vars"); ("use_E_r", LNone) ].
(** _loaders.py:481-510. *)
Definition load_ConfigInput_10 : list (string * lexpr) :=
   [ ("start", LAttr "start"); ("stop", LAttr "stop"); ("taylor_stop_angle", LAttr "taylor_stop_angle");
     ("max_steps", LAttr "max_steps"); ("num_angles", LAttr "num_angles"); ("label", LAttr "label");
     ("relative_tolerance", LAttr "relative_tolerance"); ("absolute_tolerance", LAttr "absolute_tolerance");
     ("γ", LAttr "γ"); ("nwalkers", LAttr "nwalkers"); ("iterations", LAttr "iterations");
     ("threads", LAttr "threads"); ("target_velocity", LAttr "target_velocity");
     ("split_method", LAttr "split_method"); ("v_rin_on_c_s", LAttr "v_rin_on_c_s");
     ("v_a_on_c_s", LAttr "v_a_on_c_s"); ("c_s_on_v_k", LAttr "c_s_on_v_k"); ("η_O", LAttr "η_O");
     ("η_H", LAttr "η_H"); ("η_A", LAttr "η_A"); ("jump_before_sonic", LItem "jump_before_sonic");
     ("η_derivs", LAttr "η_derivs"); ("use_taylor_jump", LAttr "use_taylor_jump");
     ("mcmc_vars", LItem "mcmc_vars"); ("v_θ_sonic_crit", LItem "v_θ_sonic_crit"); ("use_E_r", LNone) ].
(** _loaders.py:513-543. *)
Definition load_ConfigInput_11 : list (string * lexpr) :=
   [ ("start", LAttr "start"); ("stop", LAttr "stop"); ("taylor_stop_angle", LAttr "taylor_stop_angle");
     ("max_steps", LAttr "max_steps"); ("num_angles", LAttr "num_angles"); ("label", LAttr "label");
     ("relative_tolerance", LAttr "relative_tolerance"); ("absolute_tolerance", LAttr "absolute_tolerance");
     ("γ", LAttr "γ"); ("nwalkers", LAttr "nwalkers"); ("iterations", LAttr "iterations");
     ("threads", LAttr "threads"); ("target_velocity", LAttr "target_velocity");
     ("split_method", LAttr "split_method"); ("v_rin_on_c_s", LAttr "v_rin_on_c_s");
     ("v_a_on_c_s", LAttr "v_a_on_c_s"); ("c_s_on_v_k", LAttr "c_s_on_v_k"); ("η_O", LAttr "η_O");
     ("η_H", LAttr "η_H"); ("η_A", LAttr "η_A"); ("jump_before_sonic", LItem "jump_before_sonic");
     ("η_derivs", LAttr "η_derivs"); ("use_taylor_jump", LAttr "use_taylor_jump");
     ("mcmc_vars", LItem "mcmc_vars"); ("v_θ_sonic_crit", LItem "v_θ_sonic_crit");
     ("after_sonic", LItem "after_sonic"); ("use_E_r", LNone) ].
(** _loaders.py:546-578. *)
Definition load_ConfigInput_12 : list (string * lexpr) :=
   [ ("start", LAttr "start"); ("stop", LAttr "stop"); ("taylor_stop_angle", LAttr "taylor_stop_angle");
     ("max_steps", LAttr "max_steps"); ("num_angles", LAttr "num_angles"); ("label", LAttr "label");
     ("relative_tolerance", LAttr "relative_tolerance"); ("absolute_tolerance", LAttr "absolute_tolerance");
     ("γ", LAttr "γ"); ("nwalkers", LAttr "nwalkers"); ("iterations", LAttr "iterations");
     ("threads", LAttr "threads"); ("target_velocity", LAttr "target_velocity");
     ("split_method", LAttr "split_method"); ("v_rin_on_c_s", LAttr "v_rin_on_c_s");
     ("v_a_on_c_s", LAttr "v_a_on_c_s"); ("c_s_on_v_k", LAttr "c_s_on_v_k"); ("η_O", LAttr "η_O");
     ("η_H", LAttr "η_H"); ("η_A", LAttr "η_A"); ("jump_before_sonic", LItem "jump_before_sonic");
     ("η_derivs", LAttr "η_derivs"); ("use_taylor_jump", LAttr "use_taylor_jump");
     ("mcmc_vars", LItem "mcmc_vars"); ("v_θ_sonic_crit", LItem "v_θ_sonic_crit");
     ("after_sonic", LItem "after_sonic"); ("sonic_interp_size", LItem "sonic_interp_size");
     ("interp_range", LAttr "interp_range"); ("use_E_r", LNone) ].
(** _loaders.py:581-614. *)
Definition load_ConfigInput_13 : list (string * lexpr) :=
   [ ("start", LAttr "start"); ("stop", LAttr "stop"); ("taylor_stop_angle", LAttr "taylor_stop_angle");
     ("max_steps", LAttr "max_steps"); ("num_angles", LAttr "num_angles"); ("label", LAttr "label");
     ("relative_tolerance", LAttr "relative_tolerance"); ("absolute_tolerance", LAttr "absolute_tolerance");
     ("γ", LAttr "γ"); ("nwalkers", LAttr "nwalkers"); ("iterations", LAttr "iterations");
     ("threads", LAttr "threads"); ("target_velocity", LAttr "target_velocity");
     ("split_method", LAttr "split_method"); ("v_rin_on_c_s", LAttr "v_rin_on_c_s");
     ("v_a_on_c_s", LAttr "v_a_on_c_s"); ("c_s_on_v_k", LAttr "c_s_on_v_k"); ("η_O", LAttr "η_O");
     ("η_H", LAttr "η_H"); ("η_A", LAttr "η_A"); ("jump_before_sonic", LItem "jump_before_sonic");
     ("η_derivs", LAttr "η_derivs"); ("use_taylor_jump", LAttr "use_taylor_jump");
     ("mcmc_vars", LItem "mcmc_vars"); ("v_θ_sonic_crit", LItem "v_θ_sonic_crit");
     ("after_sonic", LItem "after_sonic"); ("sonic_interp_size", LItem "sonic_interp_size");
     ("interp_range", LFull "interp_range"); ("interp_slice", LItem "interp_slice"); ("use_E_r", LNone) ].
(** _loaders.py:617-650. *)
Definition load_ConfigInput_14 : list (string * lexpr) :=
   [ ("start", LAttr "start"); ("stop", LAttr "stop"); ("taylor_stop_angle", LAttr "taylor_stop_angle");
     ("max_steps", LAttr "max_steps"); ("num_angles", LAttr "num_angles"); ("label", LAttr "label");
     ("relative_tolerance", LAttr "relative_tolerance"); ("absolute_tolerance", LAttr "absolute_tolerance");
     ("γ", LAttr "γ"); ("nwalkers", LAttr "nwalkers"); ("iterations", LAttr "iterations");
     ("threads", LAttr "threads"); ("target_velocity", LAttr "target_velocity");
     ("split_method", LAttr "split_method"); ("v_rin_on_c_s", LAttr "v_rin_on_c_s");
     ("v_a_on_c_s", LAttr "v_a_on_c_s"); ("c_s_on_v_k", LAttr "c_s_on_v_k"); ("η_O", LAttr "η_O");
     ("η_H", LAttr "η_H"); ("η_A", LAttr "η_A"); ("jump_before_sonic", LItem "jump_before_sonic");
     ("η_derivs", LAttr "η_derivs"); ("use_taylor_jump", LAttr "use_taylor_jump");
     ("mcmc_vars", LItem "mcmc_vars"); ("v_θ_sonic_crit", LItem "v_θ_sonic_crit");
     ("after_sonic", LItem "after_sonic"); ("sonic_interp_size", LItem "sonic_interp_size");
     ("interp_range", LFull "interp_range"); ("interp_slice", LItem "interp_slice");
     ("use_E_r", LAttr "use_E_r") ].
(** _loaders.py:653-672. *)
Definition load_SolutionInput_1 : list (string * lexpr) :=
   [ ("start", LAttr "start"); ("stop", LAttr "stop"); ("taylor_stop_angle", LAttr "taylor_stop_angle");
     ("max_steps", LAttr "max_steps"); ("num_angles", LAttr "num_angles");
     ("relative_tolerance", LAttr "relative_tolerance"); ("absolute_tolerance", LAttr "absolute_tolerance");
     ("split_method", LText "v_θ_deriv"); ("γ", LβNum "β"); ("v_rin_on_c_s", LAttr "v_rin_on_c_s");
     ("v_a_on_c_s", LAttr "v_a_on_c_s"); ("c_s_on_v_k", LAttr "c_s_on_v_k"); ("η_O", LAttr "η_O");
     ("η_H", LAttr "η_H"); ("η_A", LAttr "η_A"); ("use_E_r", LNone) ].
(** _loaders.py:675-699. *)
Definition load_SolutionInput_2 : list (string * lexpr) :=
   [ ("start", LAttr "start"); ("stop", LAttr "stop"); ("taylor_stop_angle", LAttr "taylor_stop_angle");
     ("max_steps", LAttr "max_steps"); ("num_angles", LAttr "num_angles");
     ("relative_tolerance", LAttr "relative_tolerance"); ("absolute_tolerance", LAttr "absolute_tolerance");
     ("split_method", LText "v_θ_deriv"); ("γ", LβNum "β"); ("v_rin_on_c_s", LAttr "v_rin_on_c_s");
     ("v_a_on_c_s", LAttr "v_a_on_c_s"); ("c_s_on_v_k", LAttr "c_s_on_v_k"); ("η_O", LAttr "η_O");
     ("η_H", LAttr "η_H"); ("η_A", LAttr "η_A"); ("jump_before_sonic", LOpt "jump_before_sonic");
     ("use_E_r", LNone) ].
(** _loaders.py:702-727. *)
Definition load_SolutionInput_3 : list (string * lexpr) :=
   [ ("start", LAttr "start"); ("stop", LAttr "stop"); ("taylor_stop_angle", LAttr "taylor_stop_angle");
     ("max_steps", LAttr "max_steps"); ("num_angles", LAttr "num_angles");
     ("relative_tolerance", LAttr "relative_tolerance"); ("absolute_tolerance", LAttr "absolute_tolerance");
     ("split_method", LText "v_θ_deriv"); ("γ", LβNum "β"); ("v_rin_on_c_s", LAttr "v_rin_on_c_s");
     ("v_a_on_c_s", LAttr "v_a_on_c_s"); ("c_s_on_v_k", LAttr "c_s_on_v_k"); ("η_O", LAttr "η_O");
     ("η_H", LAttr "η_H"); ("η_A", LAttr "η_A"); ("jump_before_sonic", LOpt "jump_before_sonic");
     ("η_derivs", LAttr "η_derivs"); ("use_E_r", LNone) ].
(** _loaders.py:730-759. *)
Definition load_SolutionInput_4 : list (string * lexpr) :=
   [ ("start", LAttr "start"); ("stop", LAttr "stop"); ("taylor_stop_angle", LAttr "taylor_stop_angle");
     ("max_steps", LAttr "max_steps"); ("num_angles", LAttr "num_angles");
     ("relative_tolerance", LAttr "relative_tolerance"); ("absolute_tolerance", LAttr "absolute_tolerance");
     ("split_method", LText "v_θ_deriv"); ("γ", LAttr "γ"); ("v_rin_on_c_s", LAttr "v_rin_on_c_s");
     ("v_a_on_c_s", LAttr "v_a_on_c_s"); ("c_s_on_v_k", LAttr "c_s_on_v_k"); ("η_O", LAttr "η_O");
     ("η_H", LAttr "η_H"); ("η_A", LAttr "η_A"); ("jump_before_sonic", LOpt "jump_before_sonic");
     ("η_derivs", LAttr "η_derivs"); ("nwalkers", LNone); ("iterations", LNone); ("threads", LNone);
     ("target_velocity", LNone); ("use_E_r", LNone) ].
(** _loaders.py:762-790. *)
Definition load_SolutionInput_5 : list (string * lexpr) :=
   [ ("start", LAttr "start"); ("stop", LAttr "stop"); ("taylor_stop_angle", LAttr "taylor_stop_angle");
     ("max_steps", LAttr "max_steps"); ("num_angles", LAttr "num_angles");
     ("relative_tolerance", LAttr "relative_tolerance"); ("absolute_tolerance", LAttr "absolute_tolerance");
     ("split_method", LText "v_θ_deriv"); ("γ", LAttr "γ"); ("nwalkers", LAttr "nwalkers");
     ("iterations", LAttr "iterations"); ("threads", LAttr "threads"); ("v_rin_on_c_s", LAttr "v_rin_on_c_s");
     ("v_a_on_c_s", LAttr "v_a_on_c_s"); ("c_s_on_v_k", LAttr "c_s_on_v_k"); ("η_O", LAttr "η_O");
     ("η_H", LAttr "η_H"); ("η_A", LAttr "η_A"); ("jump_before_sonic", LOpt "jump_before_sonic");
     ("η_derivs", LAttr "η_derivs"); ("use_E_r", LNone) ].
(** _loaders.py:793-822. *)
Definition load_SolutionInput_6 : list (string * lexpr) :=
   [ ("start", LAttr "start"); ("stop", LAttr "stop"); ("taylor_stop_angle", LAttr "taylor_stop_angle");
     ("max_steps", LAttr "max_steps"); ("num_angles", LAttr "num_angles");
     ("relative_tolerance", LAttr "relative_tolerance"); ("absolute_tolerance", LAttr "absolute_tolerance");
     ("γ", LAttr "γ"); ("nwalkers", LAttr "nwalkers"); ("iterations", LAttr "iterations");
     ("threads", LAttr "threads"); ("target_velocity", LAttr "target_velocity");
     ("split_method", LText "v_θ_deriv"); ("v_rin_on_c_s", LAttr "v_rin_on_c_s");
     ("v_a_on_c_s", LAttr "v_a_on_c_s"); ("c_s_on_v_k", LAttr "c_s_on_v_k"); ("η_O", LAttr "η_O");
     ("η_H", LAttr "η_H"); ("η_A", LAttr "η_A"); ("jump_before_sonic", LOpt "jump_before_sonic");
     ("η_derivs", LAttr "η_derivs"); ("use_E_r", LNone) ].
(** _loaders.py:825-854. *)
Definition load_SolutionInput_7 : list (string * lexpr) :=
   [ ("start", LAttr "start"); ("stop", LAttr "stop"); ("taylor_stop_angle", LAttr "taylor_stop_angle");
     ("max_steps", LAttr "max_steps"); ("num_angles", LAttr "num_angles");
     ("relative_tolerance", LAttr "relative_tolerance"); ("absolute_tolerance", LAttr "absolute_tolerance");
     ("γ", LAttr "γ"); ("nwalkers", LAttr "nwalkers"); ("iterations", LAttr "iterations");
     ("threads", LAttr "threads"); ("target_velocity", LAttr "target_velocity");
     ("split_method", LAttr "split_method"); ("v_rin_on_c_s", LAttr "v_rin_on_c_s");
     ("v_a_on_c_s", LAttr "v_a_on_c_s"); ("c_s_on_v_k", LAttr "c_s_on_v_k"); ("η_O", LAttr "η_O");
     ("η_H", LAttr "η_H"); ("η_A", LAttr "η_A"); ("jump_before_sonic", LOpt "jump_before_sonic");
     ("η_derivs", LAttr "η_derivs"); ("use_E_r", LNone) ].
(** _loaders.py:857-887. *)
Definition load_SolutionInput_8 : list (string * lexpr) :=
   [ ("start", LAttr "start"); ("stop", LAttr "stop"); ("taylor_stop_angle", LAttr "taylor_stop_angle");
     ("max_steps", LAttr "max_steps"); ("num_angles", LAttr "num_angles");
     ("relative_tolerance", LAttr "relative_tolerance"); ("absolute_tolerance", LAttr "absolute_tolerance");
     ("γ", LAttr "γ"); ("nwalkers", LAttr "nwalkers"); ("iterations", LAttr "iterations");
     ("threads", LAttr "threads"); ("target_velocity", LAttr "target_velocity");
     ("split_method", LAttr "split_method"); ("v_rin_on_c_s", LAttr "v_rin_on_c_s");
     ("v_a_on_c_s", LAttr "v_a_on_c_s"); ("c_s_on_v_k", LAttr "c_s_on_v_k"); ("η_O", LAttr "η_O");
     ("η_H", LAttr "η_H"); ("η_A", LAttr "η_A"); ("jump_before_sonic", LOpt "jump_before_sonic");
     ("η_derivs", LAttr "η_derivs"); ("use_taylor_jump", LAttr "use_taylor_jump"); ("use_E_r", LNone) ].
(** _loaders.py:890-921. *)
Definition load_SolutionInput_9 : list (string * lexpr) :=
   [ ("start", LAttr "start"); ("stop", LAttr "stop"); ("taylor_stop_angle", LAttr "taylor_stop_angle");
     ("max_steps", LAttr "max_steps"); ("num_angles", LAttr "num_angles");
     ("relative_tolerance", LAttr "relative_tolerance"); ("absolute_tolerance", LAttr "absolute_tolerance");
     ("γ", LAttr "γ"); ("nwalkers", LAttr "nwalkers"); ("iterations", LAttr "iterations");
     ("threads", LAttr "threads"); ("target_velocity", LAttr "target_velocity");
     ("split_method", LAttr "split_method"); ("v_rin_on_c_s", LAttr "v_rin_on_c_s");
     ("v_a_on_c_s", LAttr "v_a_on_c_s"); ("c_s_on_v_k", LAttr "c_s_on_v_k"); ("η_O", LAttr "η_O");
     ("η_H", LAttr "η_H"); ("η_A", LAttr "η_A"); ("jump_before_sonic", LOpt "jump_before_sonic");
     ("η_derivs", LAttr "η_derivs"); ("use_taylor_jump", LAttr "use_taylor_jump");
     ("mcmc_vars", LItem "mcmc_vars"); ("use_E_r", LNone) ].
(** _loaders.py:924-960. *)
Definition load_SolutionInput_10 : list (string * lexpr) :=
   [ ("start", LAttr "start"); ("stop", LAttr "stop"); ("taylor_stop_angle", LAttr "taylor_stop_angle");
     ("max_steps", LAttr "max_steps"); ("num_angles", LAttr "num_angles");
     ("relative_tolerance", LAttr "relative_tolerance"); ("absolute_tolerance", LAttr "absolute_tolerance");
     ("γ", LAttr "γ"); ("nwalkers", LAttr "nwalkers"); ("iterations", LAttr "iterations");
     ("threads", LAttr "threads"); ("target_velocity", LAttr "target_velocity");
     ("split_method", LAttr "split_method"); ("v_rin_on_c_s", LAttr "v_rin_on_c_s");
     ("v_a_on_c_s", LAttr "v_a_on_c_s"); ("c_s_on_v_k", LAttr "c_s_on_v_k"); ("η_O", LAttr "η_O");
     ("η_H", LAttr "η_H"); ("η_A", LAttr "η_A"); ("jump_before_sonic", LOpt "jump_before_sonic");
     ("η_derivs", LAttr "η_derivs"); ("use_taylor_jump", LAttr "use_taylor_jump");
     ("mcmc_vars", LItem "mcmc_vars"); ("v_θ_sonic_crit", LOpt "v_θ_sonic_crit"); ("use_E_r", LNone) ].
(** _loaders.py:963-1004. *)
Definition load_SolutionInput_11 : list (string * lexpr) :=
   [ ("start", LAttr "start"); ("stop", LAttr "stop"); ("taylor_stop_angle", LAttr "taylor_stop_angle");
     ("max_steps", LAttr "max_steps"); ("num_angles", LAttr "num_angles");
     ("relative_tolerance", LAttr "relative_tolerance"); ("absolute_tolerance", LAttr "absolute_tolerance");
     ("γ", LAttr "γ"); ("nwalkers", LAttr "nwalkers"); ("iterations", LAttr "iterations");
     ("threads", LAttr "threads"); ("target_velocity", LAttr "target_velocity");
     ("split_method", LAttr "split_method"); ("v_rin_on_c_s", LAttr "v_rin_on_c_s");
     ("v_a_on_c_s", LAttr "v_a_on_c_s"); ("c_s_on_v_k", LAttr "c_s_on_v_k"); ("η_O", LAttr "η_O");
     ("η_H", LAttr "η_H"); ("η_A", LAttr "η_A"); ("jump_before_sonic", LOpt "jump_before_sonic");
     ("η_derivs", LAttr "η_derivs"); ("use_taylor_jump", LAttr "use_taylor_jump");
     ("mcmc_vars", LItem "mcmc_vars"); ("v_θ_sonic_crit", LOpt "v_θ_sonic_crit");
     ("after_sonic", LOpt "after_sonic"); ("use_E_r", LNone) ].
(** _loaders.py:1007-1054. *)
Definition load_SolutionInput_12 : list (string * lexpr) :=
   [ ("start", LAttr "start"); ("stop", LAttr "stop"); ("taylor_stop_angle", LAttr "taylor_stop_angle");
     ("max_steps", LAttr "max_steps"); ("num_angles", LAttr "num_angles");
     ("relative_tolerance", LAttr "relative_tolerance"); ("absolute_tolerance", LAttr "absolute_tolerance");
     ("γ", LAttr "γ"); ("nwalkers", LAttr "nwalkers"); ("iterations", LAttr "iterations");
     ("threads", LAttr "threads"); ("target_velocity", LAttr "target_velocity");
     ("split_method", LAttr "split_method"); ("v_rin_on_c_s", LAttr "v_rin_on_c_s");
     ("v_a_on_c_s", LAttr "v_a_on_c_s"); ("c_s_on_v_k", LAttr "c_s_on_v_k"); ("η_O", LAttr "η_O");
     ("η_H", LAttr "η_H"); ("η_A", LAttr "η_A"); ("jump_before_sonic", LOpt "jump_before_sonic");
     ("η_derivs", LAttr "η_derivs"); ("use_taylor_jump", LAttr "use_taylor_jump");
     ("mcmc_vars", LItem "mcmc_vars"); ("v_θ_sonic_crit", LOpt "v_θ_sonic_crit");
     ("after_sonic", LOpt "after_sonic"); ("sonic_interp_size", LOpt "sonic_interp_size");
     ("interp_range", LAttr "interp_range"); ("use_E_r", LNone) ].
(** _loaders.py:1057-1109. *)
Definition load_SolutionInput_13 : list (string * lexpr) :=
   [ ("start", LAttr "start"); ("stop", LAttr "stop"); ("taylor_stop_angle", LAttr "taylor_stop_angle");
     ("max_steps", LAttr "max_steps"); ("num_angles", LAttr "num_angles");
     ("relative_tolerance", LAttr "relative_tolerance"); ("absolute_tolerance", LAttr "absolute_tolerance");
     ("γ", LAttr "γ"); ("nwalkers", LAttr "nwalkers"); ("iterations", LAttr "iterations");
     ("threads", LAttr "threads"); ("target_velocity", LAttr "target_velocity");
     ("split_method", LAttr "split_method"); ("v_rin_on_c_s", LAttr "v_rin_on_c_s");
     ("v_a_on_c_s", LAttr "v_a_on_c_s"); ("c_s_on_v_k", LAttr "c_s_on_v_k"); ("η_O", LAttr "η_O");
     ("η_H", LAttr "η_H"); ("η_A", LAttr "η_A"); ("jump_before_sonic", LOpt "jump_before_sonic");
     ("η_derivs", LAttr "η_derivs"); ("use_taylor_jump", LAttr "use_taylor_jump");
     ("mcmc_vars", LItem "mcmc_vars"); ("v_θ_sonic_crit", LOpt "v_θ_sonic_crit");
     ("after_sonic", LOpt "after_sonic"); ("sonic_interp_size", LOpt "sonic_interp_size");
     ("interp_range", LOptFull "interp_range"); ("interp_slice", LItem "interp_slice"); ("use_E_r", LNone) ].
(** _loaders.py:1112-1164. *)
Definition load_SolutionInput_14 : list (string * lexpr) :=
   [ ("start", LAttr "start"); ("stop", LAttr "stop"); ("taylor_stop_angle", LAttr "taylor_stop_angle");
     ("max_steps", LAttr "max_steps"); ("num_angles", LAttr "num_angles");
     ("relative_tolerance", LAttr "relative_tolerance"); ("absolute_tolerance", LAttr "absolute_tolerance");
     ("γ", LAttr "γ"); ("nwalkers", LAttr "nwalkers"); ("iterations", LAttr "iterations");
     ("threads", LAttr "threads"); ("target_velocity", LAttr "target_velocity");
     ("split_method", LAttr "split_method"); ("v_rin_on_c_s", LAttr "v_rin_on_c_s");
     ("v_a_on_c_s", LAttr "v_a_on_c_s"); ("c_s_on_v_k", LAttr "c_s_on_v_k"); ("η_O", LAttr "η_O");
     ("η_H", LAttr "η_H"); ("η_A", LAttr "η_A"); ("jump_before_sonic", LOpt "jump_before_sonic");
     ("η_derivs", LAttr "η_derivs"); ("use_taylor_jump", LAttr "use_taylor_jump");
     ("mcmc_vars", LItem "mcmc_vars"); ("v_θ_sonic_crit", LOpt "v_θ_sonic_crit");
     ("after_sonic", LOpt "after_sonic"); ("sonic_interp_size", LOpt "sonic_interp_size");
     ("interp_range", LOptFull "interp_range"); ("interp_slice", LItem "interp_slice");
     ("use_E_r", LAttr "use_E_r") ].
(** _loaders.py:1167-1178. *)
Definition load_Run_1 : list (string * lexpr) :=
   [ ("config_input", LItem "config_input"); ("config_filename", LItem "config_filename");
     ("time", LItem "time"); ("final_solution", LItem "final_solution"); ("solutions", LItem "solutions");
     ("disc_solver_version", LNone); ("float_type", LNone); ("sonic_method", LText "unknown") ].
(** _loaders.py:1181-1192. *)
Definition load_Run_2 : list (string * lexpr) :=
   [ ("config_input", LItem "config_input"); ("config_filename", LItem "config_filename");
     ("time", LItem "time"); ("final_solution", LItem "final_solution"); ("solutions", LItem "solutions");
     ("disc_solver_version", LItem "disc_solver_version"); ("float_type", LNone);
     ("sonic_method", LText "unknown") ].
(** _loaders.py:1195-1206. *)
Definition load_Run_3 : list (string * lexpr) :=
   [ ("config_input", LItem "config_input"); ("config_filename", LItem "config_filename");
     ("time", LItem "time"); ("final_solution", LItem "final_solution"); ("solutions", LItem "solutions");
     ("disc_solver_version", LItem "disc_solver_version"); ("float_type", LItem "float_type");
     ("sonic_method", LText "unknown") ].
(** _loaders.py:1209-1220. *)
Definition load_Run_4 : list (string * lexpr) :=
   [ ("config_input", LItem "config_input"); ("config_filename", LItem "config_filename");
     ("time", LItem "time"); ("final_solution", LItem "final_solution"); ("solutions", LItem "solutions");
     ("disc_solver_version", LItem "disc_solver_version"); ("float_type", LItem "float_type");
     ("sonic_method", LItem "sonic_method") ].
(** _loaders.py:1223-1252. *)
Definition load_Run_5 : list (string * lexpr) :=
   [ ("config_input", LItem "config_input"); ("config_filename", LItem "config_filename");
     ("time", LItem "time"); ("final_solution", LItem "final_solution"); ("solutions", LItem "solutions");
     ("disc_solver_version", LItem "disc_solver_version"); ("float_type", LItem "float_type");
     ("sonic_method", LItem "sonic_method"); ("use_E_r", LItem "use_E_r") ].
(** _loaders.py:1255-1289. *)
Definition load_Run_6 : list (string * lexpr) :=
   [ ("config_input", LItem "config_input"); ("config_filename", LItem "config_filename");
     ("time", LItem "time"); ("final_solution", LItem "final_solution"); ("solutions", LItem "solutions");
     ("disc_solver_version", LItem "disc_solver_version"); ("float_type", LItem "float_type");
     ("sonic_method", LItem "sonic_method"); ("use_E_r", LItem "use_E_r");
     ("is_post_shock_only", LAttr "is_post_shock_only");
     ("based_on_solution_filename", LItem "based_on_solution_filename");
     ("based_on_solution_solution_name", LItem "based_on_solution_solution_name") ].
(** _loaders.py:1302-1309. *)
Definition load_JacobianData_1 : list (string * lexpr) :=
   [ ("derivs", LData "derivs"); ("params", LData "params"); ("angles", LData "angles");
     ("jacobians", LData "jacobians") ].
(** _loaders.py:1317-1323. *)
Definition load_MCMCVars_1 : list (string * lexpr) :=
   [ ("with_v_r", LItem "with_v_r"); ("with_v_a", LItem "with_v_a"); ("with_v_k", LItem "with_v_k") ].
(** _loaders.py:1326-1332. *)
Definition load_slice_1 : list (string * lexpr) :=
   [ ("start", LFull "start"); ("stop", LFull "stop"); ("step", LFull "step") ].
(** The loader registered for a class label and version. *)
Definition loader (c : string) (v : nat) : option (list (string * lexpr)) :=
  if String.eqb c "InternalData" then match v with | 1 => Some load_InternalData_1 | 2 => Some load_InternalData_2 | 3 => Some load_InternalData_3 | _ => None end else
  if String.eqb c "InitialConditions" then match v with | 1 => Some load_InitialConditions_1 | 2 => Some load_InitialConditions_2 | 3 => Some load_InitialConditions_3 | _ => None end else
  if String.eqb c "Solution" then match v with | 1 => Some load_Solution_1 | 2 => Some load_Solution_2 | 3 => Some load_Solution_3 | 4 => Some load_Solution_4 | _ => None end else
  if String.eqb c "ConfigInput" then match v with | 1 => Some load_ConfigInput_1 | 2 => Some load_ConfigInput_2 | 3 => Some load_ConfigInput_3 | 4 => Some load_ConfigInput_4 | 5 => Some load_ConfigInput_5 | 6 => Some load_ConfigInput_6 | 7 => Some load_ConfigInput_7 | 8 => Some load_ConfigInput_8 | 9 => Some load_ConfigInput_9 | 10 => Some load_ConfigInput_10 | 11 => Some load_ConfigInput_11 | 12 => Some load_ConfigInput_12 | 13 => Some load_ConfigInput_13 | 14 => Some load_ConfigInput_14 | _ => None end else
  if String.eqb c "SolutionInput" then match v with | 1 => Some load_SolutionInput_1 | 2 => Some load_SolutionInput_2 | 3 => Some load_SolutionInput_3 | 4 => Some load_SolutionInput_4 | 5 => Some load_SolutionInput_5 | 6 => Some load_SolutionInput_6 | 7 => Some load_SolutionInput_7 | 8 => Some load_SolutionInput_8 | 9 => Some load_SolutionInput_9 | 10 => Some load_SolutionInput_10 | 11 => Some load_SolutionInput_11 | 12 => Some load_SolutionInput_12 | 13 => Some load_SolutionInput_13 | 14 => Some load_SolutionInput_14 | _ => None end else
  if String.eqb c "Run" then match v with | 1 => Some load_Run_1 | 2 => Some load_Run_2 | 3 => Some load_Run_3 | 4 => Some load_Run_4 | 5 => Some load_Run_5 | 6 => Some load_Run_6 | _ => None end else
  if String.eqb c "JacobianData" then match v with | 1 => Some load_JacobianData_1 | _ => None end else
  if String.eqb c "MCMCVars" then match v with | 1 => Some load_MCMCVars_1 | _ => None end else
  if String.eqb c "slice" then match v with | 1 => Some load_slice_1 | _ => None end else
  None.
(** _dumpers.py:17-34: attributes, then items. *)
Definition dump_InternalData : list (string * string) * list (string * string) :=
  ([],
   [ ("derivs", "derivs"); ("params", "params"); ("angles", "angles"); ("jacobian_data", "jacobian_data");
     ("v_r_normal", "v_r_normal"); ("v_φ_normal", "v_φ_normal"); ("ρ_normal", "ρ_normal");
     ("v_r_taylor", "v_r_taylor"); ("v_φ_taylor", "v_φ_taylor"); ("ρ_taylor", "ρ_taylor");
     ("problems", "problems") ]).
(** _dumpers.py:37-49: attributes, then items. *)
Definition dump_InitialConditions : list (string * string) * list (string * string) :=
  ([ ("norm_kepler_sq", "norm_kepler_sq"); ("a_0", "a_0"); ("η_O", "η_O"); ("η_A", "η_A"); ("η_H", "η_H");
     ("γ", "γ"); ("init_con", "init_con") ],
   [ ("angles", "angles") ]).
(** _dumpers.py:52-70: attributes, then items. *)
Definition dump_Solution : list (string * string) * list (string * string) :=
  ([ ("flag", "flag"); ("coordinate_system", "coordinate_system");
     ("is_post_shock_only", "is_post_shock_only") ],
   [ ("angles", "angles"); ("solution", "solution"); ("internal_data", "internal_data");
     ("initial_conditions", "initial_conditions"); ("t_roots", "t_roots"); ("y_roots", "y_roots");
     ("solution_input", "solution_input"); ("derivatives", "derivatives"); ("sonic_point", "sonic_point");
     ("sonic_point_values", "sonic_point_values") ]).
(** _dumpers.py:73-108: attributes, then items. *)
Definition dump_ConfigInput : list (string * string) * list (string * string) :=
  ([ ("start", "start"); ("stop", "stop"); ("taylor_stop_angle", "taylor_stop_angle");
     ("max_steps", "max_steps"); ("num_angles", "num_angles"); ("label", "label");
     ("relative_tolerance", "relative_tolerance"); ("absolute_tolerance", "absolute_tolerance"); ("γ", "γ");
     ("nwalkers", "nwalkers"); ("iterations", "iterations"); ("threads", "threads");
     ("target_velocity", "target_velocity"); ("split_method", "split_method");
     ("v_rin_on_c_s", "v_rin_on_c_s"); ("v_a_on_c_s", "v_a_on_c_s"); ("c_s_on_v_k", "c_s_on_v_k");
     ("η_O", "η_O"); ("η_H", "η_H"); ("η_A", "η_A"); ("η_derivs", "η_derivs");
     ("use_taylor_jump", "use_taylor_jump"); ("use_E_r", "use_E_r") ],
   [ ("jump_before_sonic", "jump_before_sonic"); ("mcmc_vars", "mcmc_vars");
     ("v_θ_sonic_crit", "v_θ_sonic_crit"); ("after_sonic", "after_sonic");
     ("sonic_interp_size", "sonic_interp_size"); ("interp_range", "interp_range");
     ("interp_slice", "interp_slice") ]).
(** _dumpers.py:111-145: attributes, then items. *)
Definition dump_SolutionInput : list (string * string) * list (string * string) :=
  ([ ("start", "start"); ("stop", "stop"); ("taylor_stop_angle", "taylor_stop_angle");
     ("max_steps", "max_steps"); ("num_angles", "num_angles"); ("relative_tolerance", "relative_tolerance");
     ("absolute_tolerance", "absolute_tolerance"); ("nwalkers", "nwalkers"); ("iterations", "iterations");
     ("threads", "threads"); ("target_velocity", "target_velocity"); ("split_method", "split_method");
     ("γ", "γ"); ("v_rin_on_c_s", "v_rin_on_c_s"); ("v_a_on_c_s", "v_a_on_c_s"); ("c_s_on_v_k", "c_s_on_v_k");
     ("η_O", "η_O"); ("η_H", "η_H"); ("η_A", "η_A"); ("η_derivs", "η_derivs");
     ("use_taylor_jump", "use_taylor_jump"); ("use_E_r", "use_E_r") ],
   [ ("jump_before_sonic", "jump_before_sonic"); ("mcmc_vars", "mcmc_vars");
     ("v_θ_sonic_crit", "v_θ_sonic_crit"); ("after_sonic", "after_sonic");
     ("sonic_interp_size", "sonic_interp_size"); ("interp_range", "interp_range");
     ("interp_slice", "interp_slice") ]).
(** _dumpers.py:148-165: attributes, then items. *)
Definition dump_Run : list (string * string) * list (string * string) :=
  ([ ("is_post_shock_only", "is_post_shock_only") ],
   [ ("time", "time"); ("config_filename", "config_filename"); ("config_input", "config_input");
     ("float_type", "float_type"); ("final_solution", "final_solution"); ("solutions", "solutions");
     ("disc_solver_version", "disc_solver_version"); ("sonic_method", "sonic_method"); ("use_E_r", "use_E_r");
     ("based_on_solution_filename", "based_on_solution_filename");
     ("based_on_solution_solution_name", "based_on_solution_solution_name") ]).
(** _dumpers.py:178-188: attributes, then items. *)
Definition dump_JacobianData : list (string * string) * list (string * string) :=
  ([],
   [ ("derivs", "derivs"); ("params", "params"); ("angles", "angles"); ("jacobians", "jacobians") ]).
(** _dumpers.py:196-202: attributes, then items. *)
Definition dump_MCMCVars : list (string * string) * list (string * string) :=
  ([],
   [ ("with_v_r", "with_v_r"); ("with_v_a", "with_v_a"); ("with_v_k", "with_v_k") ]).
(** _dumpers.py:205-211: attributes, then items. *)
Definition dump_slice : list (string * string) * list (string * string) :=
  ([],
   [ ("start", "start"); ("stop", "stop"); ("step", "step") ]).
Definition dumper (c : string) : option (list (string * string) * list (string * string)) :=
  if String.eqb c "InternalData" then Some dump_InternalData else
  if String.eqb c "InitialConditions" then Some dump_InitialConditions else
  if String.eqb c "Solution" then Some dump_Solution else
  if String.eqb c "ConfigInput" then Some dump_ConfigInput else
  if String.eqb c "SolutionInput" then Some dump_SolutionInput else
  if String.eqb c "Run" then Some dump_Run else
  if String.eqb c "JacobianData" then Some dump_JacobianData else
  if String.eqb c "MCMCVars" then Some dump_MCMCVars else
  if String.eqb c "slice" then Some dump_slice else
  None.
(** The version each dumper writes (the decorators in _dumpers.py). *)
Definition dump_version (c : string) : nat :=
  if String.eqb c "InternalData" then 3 else
  if String.eqb c "InitialConditions" then 3 else
  if String.eqb c "Solution" then 4 else
  if String.eqb c "ConfigInput" then 14 else
  if String.eqb c "SolutionInput" then 14 else
  if String.eqb c "Run" then 6 else
  if String.eqb c "Problems" then 1 else
  if String.eqb c "JacobianData" then 1 else
  if String.eqb c "Solutions" then 1 else
  if String.eqb c "MCMCVars" then 1 else
  if String.eqb c "slice" then 1 else
  0.
(** _containers.py:71-88. *)
Definition fields_Solution : list (string * dflt * conv) :=
   [ ("solution_input", DRequired, CId); ("angles", DRequired, CId); ("solution", DRequired, CId);
     ("flag", DRequired, CId); ("coordinate_system", DRequired, CId); ("internal_data", DRequired, CId);
     ("initial_conditions", DRequired, CId); ("t_roots", DRequired, CId); ("y_roots", DRequired, CId);
     ("sonic_point", DRequired, CId); ("sonic_point_values", DRequired, CId); ("derivatives", DNone, CId);
     ("is_post_shock_only", DBool false, CId) ].
(** _containers.py:91-127. *)
Definition fields_ConfigInput : list (string * dflt * conv) :=
   [ ("start", DRequired, CId); ("stop", DRequired, CId); ("taylor_stop_angle", DRequired, CId);
     ("max_steps", DRequired, CId); ("num_angles", DRequired, CId); ("label", DRequired, CId);
     ("relative_tolerance", DRequired, CId); ("absolute_tolerance", DRequired, CId); ("γ", DRequired, CId);
     ("nwalkers", DRequired, CId); ("iterations", DRequired, CId); ("threads", DRequired, CId);
     ("target_velocity", DRequired, CId); ("split_method", DRequired, CId); ("v_rin_on_c_s", DRequired, CId);
     ("v_a_on_c_s", DRequired, CId); ("c_s_on_v_k", DRequired, CId); ("η_O", DRequired, CId);
     ("η_H", DRequired, CId); ("η_A", DRequired, CId); ("η_derivs", DText "True", CId);
     ("jump_before_sonic", DNone, CEmptyToNone); ("use_taylor_jump", DText "True", CId);
     ("mcmc_vars", DNone, CEmptyToNone); ("v_θ_sonic_crit", DNone, CEmptyToNone);
     ("after_sonic", DNone, CEmptyToNone); ("sonic_interp_size", DNone, CEmptyToNone);
     ("interp_range", DText "10", CEmptyToNone); ("interp_slice", DText "-1000,-100", CEmptyToNone);
     ("use_E_r", DText "False", CId) ].
(** _containers.py:245-278. *)
Definition fields_SolutionInput : list (string * dflt * conv) :=
   [ ("start", DRequired, CId); ("stop", DRequired, CId); ("taylor_stop_angle", DRequired, CId);
     ("max_steps", DRequired, CId); ("num_angles", DRequired, CId); ("relative_tolerance", DRequired, CId);
     ("absolute_tolerance", DRequired, CId); ("γ", DRequired, CId); ("nwalkers", DRequired, CId);
     ("iterations", DRequired, CId); ("threads", DRequired, CId); ("target_velocity", DRequired, CId);
     ("split_method", DRequired, CId); ("v_rin_on_c_s", DRequired, CId); ("v_a_on_c_s", DRequired, CId);
     ("c_s_on_v_k", DRequired, CId); ("η_O", DRequired, CId); ("η_H", DRequired, CId);
     ("η_A", DRequired, CId); ("η_derivs", DBool true, CId); ("jump_before_sonic", DNone, CId);
     ("use_taylor_jump", DBool true, CId); ("mcmc_vars", DNone, CMcmcVars); ("v_θ_sonic_crit", DNone, CId);
     ("after_sonic", DNone, CId); ("sonic_interp_size", DNone, CId); ("interp_range", DInt 10, CId);
     ("interp_slice", DSlice (-1000) (-100), CSlice); ("use_E_r", DBool false, CId) ].
(** _containers.py:381-389. *)
Definition fields_JacobianData : list (string * dflt * conv) :=
   [ ("jacobians", DFactory "list", CId); ("derivs", DFactory "list", CId); ("params", DFactory "list", CId);
     ("angles", DFactory "list", CId) ].
(** _containers.py:432-448. *)
Definition fields_InternalData : list (string * dflt * conv) :=
   [ ("derivs", DFactory "list", CId); ("params", DFactory "list", CId); ("angles", DFactory "list", CId);
     ("jacobian_data", DFactory "JacobianData", CId); ("v_r_normal", DFactory "list", CId);
     ("v_φ_normal", DFactory "list", CId); ("ρ_normal", DFactory "list", CId);
     ("v_r_taylor", DFactory "list", CId); ("v_φ_taylor", DFactory "list", CId);
     ("ρ_taylor", DFactory "list", CId); ("problems", DFactory "Problems", CId) ].
(** _containers.py:600-616. *)
Definition fields_Run : list (string * dflt * conv) :=
   [ ("config_input", DRequired, CId); ("config_filename", DRequired, CId);
     ("disc_solver_version", DRequired, CId); ("float_type", DRequired, CId);
     ("sonic_method", DRequired, CId); ("time", DNone, CId); ("use_E_r", DBool false, CId);
     ("final_solution", DFactory "DelayedContainer", CId); ("solutions", DFactory "Solutions", CId);
     ("is_post_shock_only", DBool false, CId); ("based_on_solution_filename", DNone, CId);
     ("based_on_solution_solution_name", DNone, CId) ].
(** _containers.py:712-719. *)
Definition fields_MCMCVars : list (string * dflt * conv) :=
   [ ("with_v_r", DRequired, CId); ("with_v_a", DRequired, CId); ("with_v_k", DRequired, CId) ].
(** slice is the Python built-in. *)
Definition fields_slice : list (string * dflt * conv) := [ ("start", DRequired, CId); ("stop", DRequired, CId); ("step", DNone, CId) ].
Definition class_fields (c : string) : option (list (string * dflt * conv)) :=
  if String.eqb c "Solution" then Some fields_Solution else
  if String.eqb c "ConfigInput" then Some fields_ConfigInput else
  if String.eqb c "SolutionInput" then Some fields_SolutionInput else
  if String.eqb c "JacobianData" then Some fields_JacobianData else
  if String.eqb c "InternalData" then Some fields_InternalData else
  if String.eqb c "Run" then Some fields_Run else
  if String.eqb c "MCMCVars" then Some fields_MCMCVars else
  if String.eqb c "slice" then Some fields_slice else
  None.
