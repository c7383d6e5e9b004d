(** Specification for input conversions: which inputs can be written as text, and what overrides mean.  Objects are
    given by the value of each field; no reference to the conversion tables. *)
From Coq Require Import String List Bool ZArith Ascii Reals.
From Verif Require Import Lib_Py Model_Format Model_Inputs Model_Run.
Import ListNotations.
Open Scope string_scope. Open Scope list_scope.

(** The object of class [c] whose field [f] is [x f]. *)
Definition object (c : string) (names : list string) (x : string -> val) : val := VObj c (map (fun f => (f, x f)) names).
Definition soln_object := object "SolutionInput" SOLUTION_INPUT_FIELDS.
Definition conf_object := object "ConfigInput" CONFIG_FIELDS.

Definition float_fields : list string :=
  ["start"; "stop"; "taylor_stop_angle"; "relative_tolerance"; "absolute_tolerance"; "target_velocity"; "γ";
   "v_rin_on_c_s"; "v_a_on_c_s"; "c_s_on_v_k"; "η_O"; "η_H"; "η_A"].
Definition int_fields : list string := ["max_steps"; "num_angles"; "nwalkers"; "iterations"; "threads"].
Definition bool_fields : list string := ["η_derivs"; "use_taylor_jump"; "use_E_r"].
Definition optional_float_fields : list string := ["jump_before_sonic"; "v_θ_sonic_crit"; "after_sonic"; "sonic_interp_size"].

(** An optional integer as a value. *)
Definition oint (o : option Z) : val := match o with None => VNone | Some z => VInt z end.

(** The text of a number is read back as that number.  (Reals are uncountable, so this cannot be asked of all.) *)
Definition float_reads (E : env) (T : text_tools) (r : option R) : Prop :=
  t_float T (e_str E (VNum r)) = Ok r /\ e_str E (VNum r) <> "" /\ e_str E (VNum r) <> "None".
Definition int_reads (T : text_tools) (z : Z) : Prop := t_int T (str_of_Z z) = Ok z.
Definition bools_read (T : text_tools) : Prop := t_bool T "True" = Ok true /\ t_bool T "False" = Ok false.
(** The slices that a comma-separated list of numbers can express. *)
Definition slice_expressible (a b s : option Z) : Prop := b <> None /\ (a = None -> s = None).

(** A solver input of the right types, all of whose numbers survive being printed. *)
Record printable (E : env) (T : text_tools) (x : string -> val) : Prop := {
  pr_float : forall f, In f float_fields -> exists r, x f = VNum r /\ float_reads E T r;
  pr_int : forall f, In f int_fields -> exists z, x f = VInt z /\ int_reads T z;
  pr_bools : bools_read T;
  pr_bool : forall f, In f bool_fields -> exists b, x f = VBool b;
  pr_opt : forall f, In f optional_float_fields -> x f = VNone \/ exists r, x f = VNum r /\ float_reads E T r;
  pr_range : x "interp_range" = VNone \/ exists z, x "interp_range" = VInt z /\ int_reads T z;
  pr_split : exists s, x "split_method" = VText s;
  pr_slice : exists a b s, x "interp_slice" = slice_obj (oint a) (oint b) (oint s) /\ slice_expressible a b s;
  pr_mcmc : x "mcmc_vars" = VNone \/
            exists r a k, x "mcmc_vars" = mcmc_obj (VBool r) (VBool a) (VBool k) /\ (r || a || k) = true }.

(** A text that a configuration file keeps as it is. *)
Definition plain_text (s : string) : Prop := strip s = s /\ has_char "%"%char s = false /\ has_char newline s = false.

(** What the last pair naming [f] in a list of overrides says. *)
Definition last_override (f : string) (l : list (string * string)) : option string :=
  match find (fun p => String.eqb (fst p) f) (rev l) with Some p => Some (snd p) | None => None end.

(** Optional fields of a configuration, where an empty text stands for None. *)
Definition optional_fields : list string :=
  ["jump_before_sonic"; "mcmc_vars"; "v_θ_sonic_crit"; "after_sonic"; "sonic_interp_size"; "interp_range"; "interp_slice"].
Definition given (f : string) (v : val) : val :=
  match v with VText s => if String.eqb s "" && str_in f optional_fields then VText "None" else v | _ => v end.

(** Values that Python calls equal: the same, or the same number, or slices with such parts. *)
Definition the_number (v : val) (r : R) : Prop :=
  v = VNum (Some r) \/ (exists z, v = VInt z /\ r = IZR z) \/ (exists b : bool, v = VBool b /\ r = if b then 1%R else 0%R).
Inductive same_value : val -> val -> Prop :=
| sv_refl : forall v, same_value v v
| sv_number : forall v w r, the_number v r -> the_number w r -> same_value v w
| sv_slice : forall fs fs', (forall f, In f ["start"; "stop"; "step"] ->
    exists a b, dget f fs = Some a /\ dget f fs' = Some b /\ same_value a b) -> same_value (VObj "slice" fs) (VObj "slice" fs').

(** The options of a configuration file: the section each belongs to, and what it is when the file does not give it. *)
Definition section_of (f : string) : string :=
  if str_in f ["γ"; "v_rin_on_c_s"; "v_a_on_c_s"; "c_s_on_v_k"; "η_O"; "η_H"; "η_A"] then "initial" else "config".
Definition documented_defaults : dict string :=
  [("start", "0"); ("stop", "5"); ("taylor_stop_angle", "0.001"); ("num_angles", "10000"); ("max_steps", "10000");
   ("relative_tolerance", "1e-6"); ("absolute_tolerance", "1e-10"); ("label", "default");
   ("γ", "0.001"); ("v_rin_on_c_s", "1"); ("v_a_on_c_s", "1"); ("c_s_on_v_k", "0.03");
   ("η_O", "0.001"); ("η_A", "0.0005"); ("η_H", "0.0001"); ("η_derivs", "True"); ("use_E_r", "False"); ("use_taylor_jump", "True");
   ("jump_before_sonic", "None"); ("v_θ_sonic_crit", "None"); ("after_sonic", "None"); ("sonic_interp_size", "None");
   ("interp_range", "10"); ("interp_slice", "-1000,-100"); ("split_method", "v_θ_deriv"); ("target_velocity", "0.9");
   ("nwalkers", "8"); ("iterations", "3"); ("threads", "1"); ("mcmc_vars", "v_r,v_a,v_k")].
Definition option_text (f : cfg_file) (o : string) : string :=
  match dget (section_of o) f with
  | Some opts => match dget o opts with Some s => s | None => match dget o documented_defaults with Some s => s | None => "" end end
  | None => match dget o documented_defaults with Some s => s | None => "" end
  end.
