(** The settings table shared by the plots, and the figures built from it.

    Models src/disc_solver/analyse/utils.py lines 38-102 (COMMON_ARGUMENTS, PLOT_ORDERINGS), 118-140
    (get_common_arguments), 489-509 (distinct_color_map), 539-547 (plot_log_lines) and the figure builders of
    analyse/plot.py 95-187, vert_plot.py 75-137, compare_plot.py 71-113, derivs_plot.py 71-112 and
    params_plot.py 59-94.

    COMMON_ARGUMENTS is one dict of dicts for the whole process and get_common_arguments hands out those very
    dicts, so it is modelled as a store and what is handed out as references (keys).  Curves are lists of points
    (abscissa, value); a value is [None] for NaN.  Not modelled: fonts, titles, legends' placement, the version
    line, line styles and markers' shapes, and saving or showing the figure. *)
From Coq Require Import Reals List Bool String.
From Verif Require Import Lib_Py Model_Index Model_Waves.
Import ListNotations.
Open Scope string_scope.
Open Scope list_scope.
Open Scope R_scope.

Definition num := option R.
Definition num_sub (a b : num) : num := match a, b with Some x, Some y => Some (x - y) | _, _ => None end.
Definition num_opp (a : num) : num := match a with Some x => Some (- x) | None => None end.
(** numpy.sqrt: NaN below zero. *)
Definition np_sqrt (x : R) : num := if Rlt_dec x 0 then None else Some (sqrt x).
(** numpy.degrees. *)
Definition degrees (x : R) : R := x * 180 / PI.

(** utils.py:38-76: the keys of COMMON_ARGUMENTS. *)
Inductive pname := pB_r | pB_φ | pB_θ | pB_z | pv_r | pv_φ | pv_θ | pv_z | pρ | pB_φ_prime | pE_r.
Definition pname_eqb (a b : pname) : bool :=
  match a, b with
  | pB_r, pB_r | pB_φ, pB_φ | pB_θ, pB_θ | pB_z, pB_z | pv_r, pv_r | pv_φ, pv_φ | pv_θ, pv_θ | pv_z, pv_z
  | pρ, pρ | pB_φ_prime, pB_φ_prime | pE_r, pE_r => true
  | _, _ => false
  end.
(** An "offset" is a number or an array; an "extras" entry has a label and data. *)
Inductive offset := Off_number (x : num) | Off_array (l : list num).
Record extra := mk_extra { ex_label : string; ex_data : list num }.
(** One dict of COMMON_ARGUMENTS: [None] for an absent key. *)
Record settings := mk_settings {
  s_name : string; s_legend : bool; s_scale : option string; s_offset : option offset; s_extras : option (list extra) }.
Definition store := pname -> settings.
Definition only_name (n : string) : settings := mk_settings n false None None None.
(** utils.py:38-76. *)
Definition COMMON_ARGUMENTS : store := fun p =>
  match p with
  | pB_r => only_name "$B_r/B_0$"
  | pB_φ => only_name "$B_φ/B_0$"
  | pB_θ => only_name "$B_θ/B_0$"
  | pB_z => only_name "$B_z/B_0$"
  | pv_r => only_name "$v_r/c_s$"
  | pv_φ => only_name "$(v_φ - v_k)/c_s$"
  | pv_θ => mk_settings "$v_θ/c_s$" true None None None
  | pv_z => mk_settings "$v_z/c_s$" true None None None
  | pρ => mk_settings "$ρ/ρ_0$" false (Some "log") None None
  | pB_φ_prime => only_name "$B_φ'/B_0$"
  | pE_r => only_name "$E_r/E_0$"
  end.
Definition st_set (p : pname) (s : settings) (st : store) : store := fun q => if pname_eqb q p then s else st q.
(** d["scale"] = v, d["offset"] = v, d["extras"] = v. *)
Definition set_scale (v : string) (s : settings) := mk_settings (s_name s) (s_legend s) (Some v) (s_offset s) (s_extras s).
Definition set_offset (v : offset) (s : settings) := mk_settings (s_name s) (s_legend s) (s_scale s) (Some v) (s_extras s).
Definition set_extras (v : list extra) (s : settings) := mk_settings (s_name s) (s_legend s) (s_scale s) (s_offset s) (Some v).

(** utils.py:79-102. *)
Inductive ordering := ord_E_r | ord_B_φ_prime | ord_E_r_vert | ord_B_φ_prime_vert.
Definition PLOT_ORDERINGS (o : ordering) : list pname :=
  match o with
  | ord_B_φ_prime => [pB_r; pB_φ; pB_θ; pv_r; pv_φ; pv_θ; pρ; pB_φ_prime]
  | ord_E_r => [pB_r; pB_φ; pB_θ; pv_r; pv_φ; pv_θ; pρ; pE_r]
  | ord_B_φ_prime_vert => [pB_r; pB_φ; pB_z; pv_r; pv_φ; pv_z; pρ; pB_φ_prime]
  | ord_E_r_vert => [pB_r; pB_φ; pB_z; pv_r; pv_φ; pv_z; pρ; pE_r]
  end.
Definition pmem (p : pname) (l : list pname) : bool := existsb (pname_eqb p) l.
(** args[i]["key"] = v, on the shared dict that args[i] is (every ordering has eight entries, so no IndexError). *)
Definition at_index (args : list pname) (i : nat) (f : settings -> settings) (st : store) : store :=
  match nth_error args i with Some p => st_set p (f (st p)) st | None => st end.

(** utils.py:118-140.  Returns the store afterwards and the references handed out. *)
Definition get_common_arguments (o : ordering) (v_θ_scale : string) (norm_kepler_sq : R) (no_v_φ_offset : bool)
    (v_φ_offset : option offset) (st : store) : store * list pname :=
  let params := PLOT_ORDERINGS o in
  let args := params in
  let st := if pmem pv_θ params
            then at_index args iv_θ (set_extras []) (at_index args iv_θ (set_scale v_θ_scale) st) else st in
  let st := if pmem pv_z params then at_index args cv_z (set_extras []) st else st in
  let st := match v_φ_offset with
            | Some off => if pmem pv_φ params then at_index args iv_φ (set_offset off) st else st
            | None => if negb no_v_φ_offset && pmem pv_φ params
                      then at_index args iv_φ (set_offset (Off_number (np_sqrt norm_kepler_sq))) st else st
            end in
  (st, args).
(** args[i]["extras"].append(e); the key is there whenever this is reached. *)
Definition append_extra (args : list pname) (i : nat) (e : extra) (st : store) : store :=
  at_index args i (fun s => set_extras (match s_extras s with Some l => l ++ [e] | None => [e] end) s) st.

(** A drawn line: legend label, colour (where one is given) and points. *)
Record line := mk_line { l_label : option string; l_color : option string; l_points : list (R * num) }.
Record panel := mk_panel { p_ylabel : string; p_yscale : string; p_lines : list line }.
Definition figure := list panel.

(** a[mask]: IndexError unless the lengths agree. *)
Fixpoint mask_list {A : Type} (mask : list bool) (l : list A) : res (list A) :=
  match mask, l with
  | [], [] => Ok []
  | b :: mask, x :: l => let! r := mask_list mask l in Ok (if b then x :: r else r)
  | _, _ => Raise IndexError
  end.
(** column - settings.get("offset", 0), with numpy's broadcasting of an array of the same length. *)
Fixpoint sub_lists (a b : list num) : res (list num) :=
  match a, b with
  | [], [] => Ok []
  | x :: a, y :: b => let! r := sub_lists a b in Ok (num_sub x y :: r)
  | _, _ => Raise ValueError
  end.
Definition minus_offset (col : list num) (off : option offset) : res (list num) :=
  match off with
  | None => Ok col
  | Some (Off_number x) => Ok (map (fun v => num_sub v x) col)
  | Some (Off_array l) => sub_lists col l
  end.
(** ax.plot(x, y): ValueError unless the lengths agree. *)
Fixpoint points (x : list R) (y : list num) : res (list (R * num)) :=
  match x, y with
  | [], [] => Ok []
  | a :: x, v :: y => let! r := points x y in Ok ((a, v) :: r)
  | _, _ => Raise ValueError
  end.
(** (start <= q) & (q <= stop). *)
Definition in_range (start stop q : R) : bool :=
  (if Rle_dec start q then true else false) && (if Rle_dec q stop then true else false).
(** The loop over enumerate(param_names): build every panel in turn, the first exception ends it. *)
Fixpoint panels (f : nat -> pname -> res panel) (i : nat) (args : list pname) : res figure :=
  match args with
  | [] => Ok []
  | p :: t => let! x := f i p in let! r := panels f (S i) t in Ok (x :: r)
  end.
Fixpoint lines_of {A : Type} (f : A -> res line) (l : list A) : res (list line) :=
  match l with [] => Ok [] | x :: t => let! a := f x in let! r := lines_of f t in Ok (a :: r) end.
Definition get_scale (s : settings) : string := match s_scale s with Some v => v | None => "linear" end.
Definition get_extras (s : settings) : list extra := match s_extras s with Some l => l | None => [] end.
Definition column (rows : list vec) (i : nat) : list num := map (fun row => Some (row i)) rows.

(** What the plots read of a stored solution. *)
Record psoln := mk_psoln {
  ps_angles : list R; ps_rows : list vec; ps_kepler_sq : R; ps_γ : R; ps_c_s_on_v_k : R;
  ps_sonic : option R; ps_sonic_values : vec; ps_roots : option (list R); ps_root_values : list vec;
  ps_internal : option (list R * list vec * list vec) }.   (* angles, params, derivs *)

(** plot.py:95-187.  The flags ask for the slow, Alfvén, fast and sound speeds. *)
Record plot_args := mk_plot_args {
  pa_slow : bool; pa_alfven : bool; pa_fast : bool; pa_sonic : bool; pa_start : R; pa_stop : R; pa_v_θ_scale : string;
  pa_hide_roots : bool; pa_hide_sonic : bool }.
Definition wave_curve (f : R * R * R -> R) (rows : list vec) : list num :=
  map (fun row => np_sqrt (f (mhd_wave_speeds row 1))) rows.
Definition plot_store (a : plot_args) (s : psoln) (use_E_r : bool) (st : store) : store * list pname :=
  let o := if use_E_r then ord_E_r else ord_B_φ_prime in
  let '(st, args) := get_common_arguments o (pa_v_θ_scale a) (ps_kepler_sq s) false None st in
  let st := if pa_slow a then append_extra args iv_θ (mk_extra "slow" (wave_curve (fun w => fst (fst w)) (ps_rows s))) st else st in
  let st := if pa_alfven a then append_extra args iv_θ (mk_extra "alfven" (wave_curve (fun w => snd (fst w)) (ps_rows s))) st else st in
  let st := if pa_fast a then append_extra args iv_θ (mk_extra "fast" (wave_curve snd (ps_rows s))) st else st in
  let st := if pa_sonic a then append_extra args iv_θ (mk_extra "sound" (map (fun _ => Some 1) (ps_rows s))) st else st in
  (st, args).
(** One marker value minus the offset; an array offset would broadcast against the scalar (not reached: the offset
    here is always a number), modelled as a ValueError. *)
Definition marker (v : R) (off : option offset) : res num :=
  match off with
  | None => Ok (Some v)
  | Some (Off_number x) => Ok (num_sub (Some v) x)
  | Some (Off_array _) => Raise ValueError
  end.
Definition plot_panel (a : plot_args) (s : psoln) (st : store) (i : nat) (p : pname) : res panel :=
  let set := st p in
  let mask := map (fun θ => in_range (pa_start a) (pa_stop a) (degrees θ)) (ps_angles s) in
  let! x := mask_list mask (ps_angles s) in
  let x := map degrees x in
  let! y := minus_offset (column (ps_rows s) i) (s_offset set) in
  let! y := mask_list mask y in
  let! main := points x y in
  let! extras := lines_of (fun e => let! d := mask_list mask (ex_data e) in
                                   let! pts := points x d in Ok (mk_line (Some (ex_label e)) None pts)) (get_extras set) in
  let! sonic := match ps_sonic s with
                | Some θ => if pa_hide_sonic a then Ok [] else
                    let! v := marker (ps_sonic_values s i) (s_offset set) in Ok [mk_line None (Some "red") [(degrees θ, v)]]
                | None => Ok []
                end in
  let! roots := match ps_roots s with
                | Some θs => if pa_hide_roots a then Ok [] else
                    let! y := minus_offset (column (ps_root_values s) i) (s_offset set) in
                    let! pts := points (map degrees θs) y in Ok [mk_line None (Some "black") pts]
                | None => Ok []
                end in
  Ok (mk_panel (s_name set) (get_scale set) (mk_line (Some (s_name set)) None main :: extras ++ sonic ++ roots)).
Definition generate_plot (a : plot_args) (s : psoln) (use_E_r : bool) (st : store) : store * res figure :=
  let '(st, args) := plot_store a s use_E_r st in
  (st, panels (plot_panel a s st) 0 args).

(** vert_plot.py:75-137.  The conversion (utils.py:260-326) is modelled row by row in [Model_Waves]; on an E_r run it
    raises before the settings are touched. *)
Fixpoint convert_rows (angles : list R) (rows : list vec) (γ c : R) (use_E_r : bool) : res (list (R * pvec)) :=
  match angles, rows with
  | [], [] => Ok []
  | θ :: angles, row :: rows =>
      match convert_spherical_to_cylindrical θ row use_E_r γ c with
      | Conv_ok hv => let! r := convert_rows angles rows γ c use_E_r in Ok (hv :: r)
      | Conv_error => Raise DiscSolverError
      end
  | _, _ => Raise ValueError
  end.
Record vert_args := mk_vert_args { va_sonic : bool; va_start : R; va_stop : R }.
Definition vert_panel (a : vert_args) (conv : list (R * pvec)) (st : store) (i : nat) (p : pname) : res panel :=
  let set := st p in
  let heights := map fst conv in
  let mask := map (in_range (va_start a) (va_stop a)) heights in
  let! x := mask_list mask heights in
  let! y := minus_offset (map (fun hv => snd hv i) conv) (s_offset set) in
  let! y := mask_list mask y in
  let! main := points x y in
  let! extras := lines_of (fun e => let! d := mask_list mask (ex_data e) in
                                   let! pts := points x d in Ok (mk_line (Some (ex_label e)) None pts)) (get_extras set) in
  Ok (mk_panel (s_name set) (get_scale set) (mk_line (Some (s_name set)) None main :: extras)).
Definition generate_vert_plot (a : vert_args) (s : psoln) (use_E_r : bool) (st : store) : store * res figure :=
  match convert_rows (ps_angles s) (ps_rows s) (ps_γ s) (ps_c_s_on_v_k s) use_E_r with
  | Raise e => (st, Raise e)
  | Ok conv =>
      let o := if use_E_r then ord_E_r_vert else ord_B_φ_prime_vert in
      let off := map (fun θ => np_sqrt (ps_kepler_sq s / get_vertical_scaling θ (ps_c_s_on_v_k s))) (ps_angles s) in
      let '(st, args) := get_common_arguments o "linear" (ps_kepler_sq s) false (Some (Off_array off)) st in
      let st := if va_sonic a then append_extra args cv_z (mk_extra "sound" (map (fun _ => Some 1) conv)) st else st in
      (st, panels (vert_panel a conv st) 0 args)
  end.

(** utils.py:489-509.  The palettes (10, 20 and 30 colours) and the grey map are arguments: [greys n] is
    list(GREYS(linspace(0.1, 0.9, num=n))). *)
Definition distinct_color_map (tab10 tab20 light10 medium10 : list string) (greys : nat -> list string) (size : nat) : list string :=
  let tab30 := tab10 ++ light10 ++ medium10 in
  if Nat.leb size (List.length tab10) then tab10
  else if Nat.leb size (List.length tab20) then tab20
  else if Nat.leb size (List.length tab30) then tab30
  else greys (size - List.length tab30)%nat ++ tab30.

(** compare_plot.py:71-113.  The legend (utils.py:550-570) is in a column of its own, beside the panels.  multiple_solution_plotter (utils.py:181-227) never passes use_E_r, so it is False.  The
    solutions come with their label; each adds one line to each of the eight panels. *)
Record cmp_args := mk_cmp_args { ca_start : R; ca_stop : R; ca_v_θ_scale : string }.
Definition cmp_panel (a : cmp_args) (name color : string) (s : psoln) (st : store) (i : nat) (p : pname) : res panel :=
  let set := st p in
  let mask := map (fun θ => in_range (ca_start a) (ca_stop a) (degrees θ)) (ps_angles s) in
  let! x := mask_list mask (ps_angles s) in
  let! y := minus_offset (column (ps_rows s) i) (s_offset set) in
  let! y := mask_list mask y in
  let! pts := points (map degrees x) y in
  Ok (mk_panel (s_name set) (get_scale set) [mk_line (Some name) (Some color) pts]).
(** Drawing on existing axes: lines accumulate, label and scale are those set last. *)
Fixpoint overlay (old new : figure) : figure :=
  match old, new with
  | o :: old, n :: new => mk_panel (p_ylabel n) (p_yscale n) (p_lines o ++ p_lines n) :: overlay old new
  | [], new => new
  | old, [] => old
  end.
Fixpoint compare_loop (a : cmp_args) (l : list ((string * psoln) * string)) (fig : figure) (st : store) : store * res figure :=
  match l with
  | [] => (st, Ok fig)
  | ((name, s), color) :: t =>
      let '(st, args) := get_common_arguments ord_B_φ_prime (ca_v_θ_scale a) (ps_kepler_sq s) false None st in
      match panels (cmp_panel a name color s st) 0 args with
      | Raise e => (st, Raise e)
      | Ok new => compare_loop a t (overlay fig new) st
      end
  end.
Definition generate_compare_plot (a : cmp_args) (colors : nat -> list string) (num_solutions : nat)
    (solutions : list (string * psoln)) (st : store) : store * res figure :=
  compare_loop a (combine solutions (colors num_solutions)) [] st.

(** utils.py:539-547 (log axes; NaN compares false, so it goes to the second line). *)
Definition non_negative (v : num) : bool := match v with Some x => if Rle_dec 0 x then true else false | None => false end.
Definition plot_log_lines (x : list R) (y : list num) : res (list line) :=
  let pos := map non_negative y in
  let neg := map negb pos in
  let! x1 := mask_list pos x in
  let! y1 := mask_list pos y in
  let! l1 := points x1 y1 in
  let! x2 := mask_list neg x in
  let! y2 := mask_list neg y in
  let! l2 := points x2 (map num_opp y2) in
  Ok [mk_line None None l1; mk_line None None l2].

(** derivs_plot.py:71-112 and params_plot.py:58-92.  The title of a panel plays the part of its label; AnalysisError is
    [OtherError].  Indexing rows and then a column is the same as a masked column. *)
Record int_args := mk_int_args { ia_start : R; ia_stop : R; ia_nolog : bool }.
Definition int_panel (a : int_args) (angles : list R) (rows : list vec) (st : store) (i : nat) (p : pname) : res panel :=
  let set := st p in
  let mask := map (fun θ => in_range (ia_start a) (ia_stop a) (degrees θ)) angles in
  let! x := mask_list mask angles in
  let! y := mask_list mask (column rows i) in
  let! lines := if ia_nolog a then let! pts := points (map degrees x) y in Ok [mk_line None None pts]
                else plot_log_lines (map degrees x) y in
  Ok (mk_panel (s_name set) (if ia_nolog a then "linear" else "log") lines).
Definition generate_derivs_plot (a : int_args) (s : psoln) (use_E_r : bool) (st : store) : store * res figure :=
  match ps_internal s with
  | None => (st, Raise OtherError)
  | Some (angles, params, derivs) =>
      let o := if use_E_r then ord_E_r else ord_B_φ_prime in
      let '(st, args) := get_common_arguments o "linear" (ps_kepler_sq s) true None st in
      (st, panels (int_panel a angles derivs st) 0 args)
  end.
(** params_plot.py:58-92 has no nolog option: always [plot_log_lines]. *)
Definition generate_params_plot (a : int_args) (s : psoln) (use_E_r : bool) (st : store) : store * res figure :=
  if use_E_r then (st, Raise OtherError) else
  match ps_internal s with
  | None => (st, Raise OtherError)
  | Some (angles, params, derivs) =>
      let '(st, args) := get_common_arguments ord_B_φ_prime "linear" (ps_kepler_sq s) false None st in
      (st, panels (int_panel (mk_int_args (ia_start a) (ia_stop a) false) angles params st) 0 args)
  end.

(** The plots one process may make, and a history of them: the store is whatever the earlier ones left. *)
Inductive command :=
| Cplot (a : plot_args) (s : psoln) (use_E_r : bool)
| Cvert (a : vert_args) (s : psoln) (use_E_r : bool)
| Ccompare (a : cmp_args) (colors : nat -> list string) (n : nat) (l : list (string * psoln))
| Cderivs (a : int_args) (s : psoln) (use_E_r : bool)
| Cparams (a : int_args) (s : psoln) (use_E_r : bool).
Definition run_command (c : command) (st : store) : store * res figure :=
  match c with
  | Cplot a s e => generate_plot a s e st
  | Cvert a s e => generate_vert_plot a s e st
  | Ccompare a colors n l => generate_compare_plot a colors n l st
  | Cderivs a s e => generate_derivs_plot a s e st
  | Cparams a s e => generate_params_plot a s e st
  end.
Definition after (h : list command) : store := fold_left (fun st c => fst (run_command c st)) h COMMON_ARGUMENTS.
