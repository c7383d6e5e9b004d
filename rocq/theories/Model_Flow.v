(** Trajectories in files and in figures: src/disc_solver/analyse/trajectory.py:103-119, 229-310 and 363-474.

    A solution is what these functions use of it: its angles, its rows and γ.  Numbers are exact reals; [text] is str() of a
    number.  The file system is a map from names to contents, and nobody else writes while the function runs.  Printing is kept
    as the list of printed messages without the error messages of follow_trajectory.  Of matplotlib, a figure is what is added to
    its axes, in order.  Directories and permissions are not modelled. *)
From Coq Require Import String List Bool Reals.
From Verif Require Import Lib_Py Model_Index Model_Array Model_Csv Model_Critical Model_Stats Model_Trajectory.
Import ListNotations.
Open Scope R_scope. Open Scope string_scope. Open Scope list_scope.

Record fsoln := mk_fsoln { fl_angles : list R; fl_rows : list vec; fl_γ : R }.
(** Column of a solution: solution[:, i]. *)
Definition column (i : nat) (s : fsoln) : list R := map (fun r : vec => r i) (fl_rows s).
Definition files := string -> option string.
Definition write (name content : string) (fs : files) : files := fun n => if String.eqb n name then Some content else fs n.
Definition present (name : string) (fs : files) : bool := match fs name with Some _ => true | None => false end.
(** The exception of a call modelled in Model_Array. *)
Definition exn_of {A} (r : py A) : exn := match r with ValueError => Lib_Py.ValueError | IndexError => Lib_Py.IndexError | _ => OtherError end.
Definition exn_of_ending (e : ending) : option exn := match e with Ended => None | TypeErr => Some TypeError | OtherErr => Some OtherError end.

(** trajectory.py:229-236: the arguments; 274-282 and 296-304: the two lines followed. *)
Record flow_args := mk_flow_args {
  fa_v_start : pt; fa_B_start : pt; fa_v_max_steps : nat; fa_B_max_steps : nat; fa_v_step : R; fa_B_step : R }.
Definition v_line (s : fsoln) (a : flow_args) : list (pt * pt) * ending :=
  follow_trajectory (fa_v_start a) (fl_angles s) (column iv_r s) (column iv_θ s) (-1/2) (fa_v_max_steps a) (fa_v_step a).
Definition B_line (s : fsoln) (a : flow_args) : list (pt * pt) * ending :=
  follow_trajectory (fa_B_start a) (fl_angles s) (column iB_r s) (column iB_θ s) (fl_γ s - 5/4) (fa_B_max_steps a) (fa_B_step a).

Section Text.
Variable text : R -> string.
Definition cell (o : option R) : string := match o with Some x => text x | None => "" end.
(** trajectory.py:256-259, 270-273, 292-295. *)
Definition heading (filename : string) (soln_range : option string) (names : list string) : string :=
  (metadata [("filename", filename); ("soln_range", match soln_range with Some r => r | None => "None" end)] ++ csv_row names)%string.
Definition rows_text (rows : list (list string)) : string := String.concat "" (map csv_row rows).
(** trajectory.py:283-285, 305-307. *)
Definition point_row (vp : pt * pt) : list string :=
  let '(vals, pos) := vp in [text (fst vals); text (snd vals); text (fst pos); text (snd pos)].

(** with open(name, 'x') as f: the file is made before anything is written to it, and keeps what was written when the body fails. *)
Definition created (name : string) (body : string * option exn) (message : string)
  (next : files -> list string -> files * list string * option exn) (fs : files) (said : list string) : files * list string * option exn :=
  if present name fs then (fs, said, Some FileExistsError)
  else match body with
       | (content, Some e) => (write name content fs, said, Some e)
       | (content, None) => next (write name content fs) (said ++ [message])
       end.
(** The body of the second and third file. *)
Definition line_body (head : string) (l : list (pt * pt) * ending) : string * option exn :=
  ((head ++ rows_text (map point_row (fst l)))%string, exn_of_ending (snd l)).

(** trajectory.py:229-310. *)
Definition save_trajectory (s : fsoln) (filename : string) (soln_range : option string) (stats_output_file B_output_file v_output_file : string)
  (a : flow_args) (fs : files) : files * list string * option exn :=
  match get_all_sonic_points (fl_angles s) (fl_rows s) with
  | Ret (slow_angle, sonic_angle, alfven_angle, fast_angle) =>
      match py_max (fl_angles s) with
      | Ret max_soln_angle =>
          created stats_output_file
            ((heading filename soln_range ["slow_angle"; "sonic_angle"; "alfven_angle"; "fast_angle"; "max_soln_angle"] ++
              rows_text [[cell slow_angle; cell sonic_angle; cell alfven_angle; cell fast_angle; text max_soln_angle]])%string, None) "Saved stats"
            (created v_output_file (line_body (heading filename soln_range ["v_x"; "v_y"; "x"; "y"]) (v_line s a)) "Saved v"
              (created B_output_file (line_body (heading filename soln_range ["B_x"; "B_y"; "x"; "y"]) (B_line s a)) "Saved B"
                (fun fs said => (fs, said ++ [("Finished " ++ filename)%string], None)))) fs []
      | e => (fs, [], Some (exn_of e))
      end
  | e => (fs, [], Some (exn_of e))
  end.

(** ** The figure *)
(** ax.axline((0, 0), slope=...) and ax.plot(xs, ys), with label and colour. *)
Inductive drawn := Line (slope : R) (label color : string) | Curve (points : list pt) (label color : string).
(** trajectory.py:103-119: the values and the positions, in order. *)
Definition get_trajectory (l : list (pt * pt) * ending) : res (list pt * list pt) :=
  match exn_of_ending (snd l) with Some e => Raise e | None => Ok (map fst (fst l), map snd (fst l)) end.
(** positions[:, i] of the array of a list of points: a list without points makes an array with one axis. *)
Definition columns_of (positions : list pt) : res (list pt) := match positions with [] => Raise Lib_Py.IndexError | _ => Ok positions end.
Record flow_lines := mk_flow_lines {
  fl_slow : bool; fl_sonic : bool; fl_alfven : bool; fl_fast : bool; fl_45 : bool; fl_max_soln : bool; fl_max_v : bool }.
(** trajectory.py:370-373: what a caller of plot cannot change. *)
Definition plotted_lines (with_max_v_angle : bool) : flow_lines := mk_flow_lines false true false false false false with_max_v_angle.
Definition angle_line (flag : bool) (angle : option R) (name color : string) : list drawn :=
  match flag, angle with
  | true, Some θ => [Line (tan θ) (name ++ " (" ++ text (degrees θ) ++ "°)")%string color]
  | _, _ => []
  end.
(** A call that answers or raises, as a result. *)
Definition res_of {A} (r : py A) : res A := match r with Ret x => Ok x | e => Raise (exn_of e) end.
(** trajectory.py:363-474. *)
Definition generate_flow_plot (s : fsoln) (a : flow_args) (w : flow_lines) : res (list drawn) :=
  let! pts := res_of (get_all_sonic_points (fl_angles s) (fl_rows s)) in
  let '(slow_angle, sonic_angle, alfven_angle, fast_angle) := pts in
  let! v := get_trajectory (v_line s a) in
  let '(v_values, v_positions) := v in
  let! B := get_trajectory (B_line s a) in
  let '(B_values, B_positions) := B in
  let slow := angle_line (fl_slow w) slow_angle "Slow point angle" "C2" in
  let sonic := angle_line (fl_sonic w) sonic_angle "Sonic point angle" "C3" in
  let alfven := angle_line (fl_alfven w) alfven_angle "alfven point angle" "C4" in
  let fast := angle_line (fl_fast w) fast_angle "fast point angle" "C5" in
  let line_45 := if fl_45 w then [Line 1 "45°" "C6"] else [] in
  let! max_soln := if fl_max_soln w
                   then let! θ := res_of (py_max (fl_angles s)) in Ok [Line (tan θ) ("Max angle in solution " ++ text (degrees θ) ++ "°")%string "C7"]
                   else Ok [] in
  let! max_v := if fl_max_v w
                then let! ps := columns_of v_positions in
                     let! θ := res_of (py_max (map (fun p => arctan2 (snd p) (fst p)) ps)) in
                     Ok [Line (tan θ) ("Max angle in v streamline " ++ text (degrees θ) ++ "°")%string "C8"]
                else Ok [] in
  let! B_points := columns_of B_positions in
  let! v_points := columns_of v_positions in
  Ok (slow ++ sonic ++ alfven ++ fast ++ line_45 ++ max_soln ++ max_v ++
      [Curve B_points "$B$ field line" "C1"; Curve v_points "$v$ streamline" "C0"]).
End Text.
