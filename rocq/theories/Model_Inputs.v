(** Conversions between configuration text and solver input, configuration files and overrides.

    Models src/disc_solver/file_format/_containers.py:50-57, 131-242, 280-345, 712-729, solve/config.py:111-209
    and solve/utils.py:155-184.

    Not modelled: the stringtopy package (str_to_float, str_to_int, str_to_bool), the text of a float, and
    file_handling of configparser beyond what [cfg_set], [cfg_text] and [cfg_get] say; logging. *)
From Coq Require Import String List Bool ZArith Ascii Reals.
From Verif Require Import Lib_Py Model_FormatTables Model_Format Model_Run.
Import ListNotations.
Open Scope string_scope. Open Scope list_scope.

(** What stringtopy gives for a text, with float_type applied to floats. *)
Record text_tools := mk_tools {
  t_float : string -> res (option R); t_int : string -> res Z; t_bool : string -> res bool }.

(** _containers.py:721-729. *)
Definition is_true (v : val) : bool := match v with VBool b => b | _ => false end.
Definition mcmc_str (fs : dict val) : string :=
  String.concat ","
    ((if is_true (match dget "with_v_r" fs with Some v => v | None => VNone end) then ["v_r"] else []) ++
     (if is_true (match dget "with_v_a" fs with Some v => v | None => VNone end) then ["v_a"] else []) ++
     (if is_true (match dget "with_v_k" fs with Some v => v | None => VNone end) then ["v_k"] else [])).
(** str(v). *)
Definition text_of (E : env) (v : val) : string :=
  match v with
  | VNone => "None" | VBool true => "True" | VBool false => "False" | VInt z => str_of_Z z | VText s => s
  | VObj c fs => if String.eqb c "MCMCVars" then mcmc_str fs else e_str E v
  | _ => e_str E v
  end.
(** _containers.py:50-57. *)
Definition not_none (v : val) : bool := match v with VNone => false | _ => true end.
Definition slice_to_str (E : env) (v : val) : res string :=
  let! a := getattr "start" v in let! b := getattr "stop" v in let! s := getattr "step" v in
  Ok (String.concat "," (map (text_of E) (filter not_none [a; b; s]))).

(** ** to_soln_input and to_config_input *)
Inductive in_kind := IFloat | IInt | IBool | IText | IOptFloat | IOptInt | ISlice | IMcmc.
(** The keyword arguments of _containers.py:188-242, in order. *)
Definition to_soln_table : list (string * in_kind) :=
  [("start", IFloat); ("stop", IFloat); ("taylor_stop_angle", IFloat); ("max_steps", IInt); ("num_angles", IInt);
   ("relative_tolerance", IFloat); ("absolute_tolerance", IFloat); ("jump_before_sonic", IOptFloat);
   ("v_θ_sonic_crit", IOptFloat); ("after_sonic", IOptFloat); ("sonic_interp_size", IOptFloat);
   ("interp_range", IOptInt); ("interp_slice", ISlice); ("η_derivs", IBool); ("nwalkers", IInt);
   ("iterations", IInt); ("threads", IInt); ("target_velocity", IFloat); ("split_method", IText);
   ("use_taylor_jump", IBool); ("mcmc_vars", IMcmc); ("γ", IFloat); ("v_rin_on_c_s", IFloat);
   ("v_a_on_c_s", IFloat); ("c_s_on_v_k", IFloat); ("η_O", IFloat); ("η_H", IFloat); ("η_A", IFloat);
   ("use_E_r", IBool)].
Definition on_text {A} (f : string -> res A) (wrap : A -> val) (v : val) : res val :=
  match v with VText s => let! x := f s in Ok (wrap x) | _ => Raise OtherError end.
(** X is None or X == "None". *)
Definition says_none (v : val) : bool := match v with VNone => true | VText s => String.eqb s "None" | _ => false end.
Definition convert_in (E : env) (T : text_tools) (k : in_kind) (v : val) : res val :=
  match k with
  | IFloat => on_text (t_float T) VNum v
  | IInt => on_text (t_int T) VInt v
  | IBool => on_text (t_bool T) VBool v
  | IText => Ok v
  | IOptFloat => if says_none v then Ok VNone else on_text (t_float T) VNum v
  | IOptInt => if says_none v then Ok VNone else on_text (t_int T) VInt v
  | ISlice => str_to_slice E v
  | IMcmc => mcmc_vars_str_to_obj v
  end.
Fixpoint convert_all (E : env) (T : text_tools) (t : list (string * in_kind)) (self : val) : res (dict val) :=
  match t with
  | [] => Ok []
  | (f, k) :: t' =>
      let! raw := getattr f self in
      let! v := convert_in E T k raw in
      let! rest := convert_all E T t' self in
      Ok ((f, v) :: rest)
  end.
(** _containers.py:184-242. *)
Definition to_soln_input (E : env) (T : text_tools) (self : val) : res val :=
  let! kw := convert_all E T to_soln_table self in construct E "SolutionInput" kw.

Inductive out_kind := OStr | OPass | OSlice.
(** The keyword arguments of _containers.py:290-333 after label, in order.  "None" if X is None else str(X) is
    str(X). *)
Definition to_config_table : list (string * out_kind) :=
  [("start", OStr); ("stop", OStr); ("taylor_stop_angle", OStr); ("max_steps", OStr); ("num_angles", OStr);
   ("relative_tolerance", OStr); ("absolute_tolerance", OStr); ("jump_before_sonic", OStr);
   ("v_θ_sonic_crit", OStr); ("after_sonic", OStr); ("sonic_interp_size", OStr); ("interp_range", OStr);
   ("interp_slice", OSlice); ("η_derivs", OStr); ("nwalkers", OStr); ("iterations", OStr); ("threads", OStr);
   ("target_velocity", OStr); ("split_method", OPass); ("use_taylor_jump", OStr); ("mcmc_vars", OStr);
   ("use_E_r", OStr); ("γ", OStr); ("v_rin_on_c_s", OStr); ("v_a_on_c_s", OStr); ("c_s_on_v_k", OStr);
   ("η_O", OStr); ("η_H", OStr); ("η_A", OStr)].
Definition convert_out (E : env) (k : out_kind) (v : val) : res val :=
  match k with
  | OStr => Ok (VText (text_of E v))
  | OPass => Ok v
  | OSlice => let! s := slice_to_str E v in Ok (VText s)
  end.
Fixpoint convert_out_all (E : env) (t : list (string * out_kind)) (self : val) : res (dict val) :=
  match t with
  | [] => Ok []
  | (f, k) :: t' =>
      let! raw := getattr f self in
      let! v := convert_out E k raw in
      let! rest := convert_out_all E t' self in
      Ok ((f, v) :: rest)
  end.
(** _containers.py:286-333. *)
Definition to_config_input (E : env) (label : val) (self : val) : res val :=
  let! kw := convert_out_all E to_config_table self in construct E "ConfigInput" (("label", label) :: kw).
(** attr.evolve: the class called with the fields, the changes replacing them.  A change that is no field is an
    extra keyword argument. *)
Definition evolve (E : env) (changes : dict val) (self : val) : res val :=
  match self with VObj c fs => construct E c (dupdate fs changes) | _ => Raise OtherError end.
(** _containers.py:335-345. *)
Definition new_without_sonic_taylor (E : env) (self : val) : res val :=
  evolve E [("use_taylor_jump", VBool false); ("jump_before_sonic", VNone); ("v_θ_sonic_crit", VNone);
            ("after_sonic", VNone); ("interp_range", VNone); ("interp_slice", VNone); ("sonic_interp_size", VNone)] self.

(** ** Configuration files *)
Fixpoint has_char (c : ascii) (s : string) : bool :=
  match s with EmptyString => false | String a t => Ascii.eqb a c || has_char c t end.
(** cfg[section][option] = value: configparser accepts text only (TypeError otherwise); a text with a % that is not
    an interpolation is a ValueError.  Texts with %% or %(..)s are accepted by configparser; the model does not
    follow those and gives OtherError. *)
Definition cfg_set (v : val) : res string :=
  match v with
  | VText s => if has_char "%" s then Raise OtherError else Ok s
  | _ => Raise TypeError
  end.
(** The text that reading the written line gives: the value without surrounding white space.  A value with a
    line break is outside the model. *)
Definition newline : ascii := ascii_of_nat 10.
Definition cfg_text (s : string) : res string :=
  if has_char newline s then Raise OtherError else Ok (strip s).
Definition cfg_file := dict (dict string).   (* section, option *)
Inductive when := Always | IfNotNone.
(** _containers.py:143-180: section, option, when it is written. *)
Definition conf_file_table : list (string * string * when) :=
  [("config", "start", Always); ("config", "stop", Always); ("config", "taylor_stop_angle", Always);
   ("config", "max_steps", Always); ("config", "num_angles", Always); ("config", "label", Always);
   ("config", "relative_tolerance", Always); ("config", "absolute_tolerance", Always);
   ("config", "nwalkers", Always); ("config", "iterations", Always); ("config", "threads", Always);
   ("config", "target_velocity", Always); ("config", "split_method", Always); ("config", "interp_range", Always);
   ("config", "interp_slice", Always); ("config", "use_E_r", Always); ("initial", "γ", Always);
   ("initial", "v_rin_on_c_s", Always); ("initial", "v_a_on_c_s", Always); ("initial", "c_s_on_v_k", Always);
   ("initial", "η_O", Always); ("initial", "η_H", Always); ("initial", "η_A", Always);
   ("config", "η_derivs", Always); ("config", "use_taylor_jump", Always);
   ("config", "jump_before_sonic", IfNotNone); ("config", "mcmc_vars", IfNotNone);
   ("config", "v_θ_sonic_crit", IfNotNone); ("config", "after_sonic", IfNotNone);
   ("config", "sonic_interp_size", IfNotNone)].
Fixpoint write_options (t : list (string * string * when)) (self : val) (f : cfg_file) : res cfg_file :=
  match t with
  | [] => Ok f
  | (section, option, w) :: t' =>
      let! v := getattr option self in
      match w, v with
      | IfNotNone, VNone => write_options t' self f
      | _, _ =>
          let! raw := cfg_set v in
          let! s := cfg_text raw in
          let opts := match dget section f with Some o => o | None => [] end in
          write_options t' self (dset section (dset option s opts) f)
      end
  end.
(** _containers.py:135-182: what is read from the file it writes. *)
Definition to_conf_file (self : val) : res cfg_file := write_options conf_file_table self [("config", []); ("initial", [])].

(** config.get(section, option, fallback=...). *)
Definition cfg_get (f : cfg_file) (section option fallback : string) : val :=
  match dget section f with
  | Some opts => match dget option opts with Some s => VText s | None => VText fallback end
  | None => VText fallback
  end.
(** config.py:120-177, in order. *)
Definition conf_defaults : list (string * string * string) :=
  [("config", "start", "0"); ("config", "stop", "5"); ("config", "taylor_stop_angle", "0.001");
   ("config", "max_steps", "10000"); ("config", "num_angles", "10000"); ("config", "label", "default");
   ("config", "relative_tolerance", "1e-6"); ("config", "absolute_tolerance", "1e-10");
   ("config", "jump_before_sonic", "None"); ("config", "v_θ_sonic_crit", "None"); ("config", "after_sonic", "None");
   ("config", "interp_range", "10"); ("config", "sonic_interp_size", "None"); ("config", "interp_slice", "-1000,-100");
   ("config", "η_derivs", "True"); ("config", "nwalkers", "8"); ("config", "iterations", "3");
   ("config", "threads", "1"); ("config", "mcmc_vars", "v_r,v_a,v_k"); ("config", "target_velocity", "0.9");
   ("config", "split_method", "v_θ_deriv"); ("config", "use_taylor_jump", "True"); ("config", "use_E_r", "False");
   ("initial", "γ", "0.001"); ("initial", "v_rin_on_c_s", "1"); ("initial", "v_a_on_c_s", "1");
   ("initial", "c_s_on_v_k", "0.03"); ("initial", "η_O", "0.001"); ("initial", "η_H", "0.0001");
   ("initial", "η_A", "0.0005")].
(** solve/utils.py:155-162. *)
Definition add_overrides (E : env) (overrides : option (dict val)) (config_input : val) : res val :=
  match overrides with None => Ok config_input | Some o => evolve E o config_input end.
(** config.py:111-177; the empty file for config_file None. *)
Definition get_input_from_conffile (E : env) (f : cfg_file) (overrides : option (dict val)) : res val :=
  let! c := construct E "ConfigInput" (map (fun e => let '(s, o, d) := e in (o, cfg_get f s o d)) conf_defaults) in
  add_overrides E overrides c.

(** solve/utils.py:168-180.  CONFIG_FIELDS is the names of ConfigInput's fields (file_format/__init__.py:20-21, _utils.py:21-25). *)
Definition CONFIG_FIELDS : list string := map (fun f => fst (fst f)) fields_ConfigInput.
Definition SOLUTION_INPUT_FIELDS : list string := map (fun f => fst (fst f)) fields_SolutionInput.
Fixpoint validate_loop (overrides : list (string * string)) (clean : dict val) : res (dict val) :=
  match overrides with
  | [] => Ok clean
  | (name, value) :: t => if str_in name CONFIG_FIELDS then validate_loop t (dset name (VText value) clean) else Raise SolverError
  end.
Definition validate_overrides (overrides : list (string * string)) : res (dict val) := validate_loop overrides [].

(** ** new_inputs_with_overrides (config.py:180-209) *)
(** Python's == for the values of input fields.  MCMCVars has no __eq__ (attr.s(eq=False)): two separately built
    objects are unequal, which is what always holds here, one being newly built by to_soln_input. *)
Definition opt_eqb (x y : option R) : bool :=
  match x, y with Some a, Some b => if Req_EM_T a b then true else false | _, _ => false end.
(** The number a bool, int or float is. *)
Definition num_of (v : val) : option (option R) :=
  match v with VBool b => Some (Some (IZR (if b then 1 else 0))) | VInt z => Some (Some (IZR z)) | VNum x => Some x | _ => None end.
Definition py_eq_flat (v w : val) : bool :=
  match num_of v, num_of w with
  | Some a, Some b => opt_eqb a b
  | Some _, None | None, Some _ => false
  | None, None => match v, w with VNone, VNone => true | VText a, VText b => String.eqb a b | _, _ => false end
  end.
Definition py_eq (v w : val) : bool :=
  match v, w with
  | VObj c fs, VObj c' fs' =>
      String.eqb c "slice" && String.eqb c' "slice" &&
      match dget "start" fs, dget "start" fs', dget "stop" fs, dget "stop" fs', dget "step" fs, dget "step" fs' with
      | Some a, Some a', Some b, Some b', Some s, Some s' => py_eq_flat a a' && py_eq_flat b b' && py_eq_flat s s'
      | _, _, _, _, _, _ => false
      end
  | _, _ => py_eq_flat v w
  end.
(** attrs equality: the same class and equal fields. *)
Definition input_eq (a b : dict val) : bool :=
  forallb (fun kv => match dget (fst kv) b with Some w => py_eq (snd kv) w | None => false end) a.
(** The loop of config.py:199-203: the keys to take from the solution. *)
Fixpoint use_soln_keys (conf soln overrides : dict val) : res (list string) :=
  match conf with
  | [] => Ok []
  | (key, v) :: t =>
      if dmem key overrides then use_soln_keys t soln overrides
      else let! w := dgetitem key soln in
           let! rest := use_soln_keys t soln overrides in
           Ok (if py_eq v w then rest else key :: rest)
  end.
Fixpoint set_keys (keys : list string) (soln : dict val) (inp : dict val) : dict val :=
  match keys with
  | [] => inp
  | k :: t => set_keys t soln (match dget k soln with Some v => dset k v inp | None => inp end)
  end.
Definition fields_of (v : val) : res (dict val) := match v with VObj _ fs => Ok fs | _ => Raise AttributeError end.
Definition new_inputs_with_overrides (E : env) (T : text_tools) (config_input solution_input : val) (overrides : option (dict val))
  : res (val * val) :=
  let overrides := match overrides with Some o => o | None => [] end in
  let! new_config_input := add_overrides E (Some overrides) config_input in
  let! new_soln_input := to_soln_input E T new_config_input in
  let! initial_soln_input := to_soln_input E T config_input in
  let! conf_dict := fields_of initial_soln_input in
  let! soln_dict := fields_of solution_input in
  if input_eq soln_dict conf_dict then Ok (new_config_input, new_soln_input) else
  let! keys := use_soln_keys conf_dict soln_dict overrides in
  let! new_dict := fields_of new_soln_input in
  Ok (new_config_input, VObj "SolutionInput" (set_keys keys soln_dict new_dict)).
