(** The ds-info command: analyse/info.py 15-182 (the order of the solutions, 185-194, is in Model_Filter, the critical
    points are in Model_Critical), from the command line (Model_Options) to what is printed.

    A print call adds one text to the stream it is given; the texts printed before an exception stay printed.  Texts are
    UTF-8; a field width counts code points.  The critical points and the log probability of a solution are arguments.
    An object of a class of _containers.py is [VObj] with its attributes in the order of vars(). *)
From Coq Require Import String Ascii List Bool ZArith Arith Reals.
From Verif Require Import Lib_Py Model_Options Model_Format Model_Inputs Model_Run Model_Filter.
Import ListNotations.
Open Scope string_scope. Open Scope list_scope.

(** The first byte of a code point. *)
Definition starts_code_point (a : ascii) : bool := let n := nat_of_ascii a in negb ((128 <=? n) && (n <? 192))%nat.
Fixpoint code_points (s : string) : nat :=
  match s with EmptyString => 0 | String a t => (if starts_code_point a then 1 else 0) + code_points t end.
Fixpoint spaces (n : nat) : string := match n with O => "" | S m => String " " (spaces m) end.
(** "{: <20}" *)
Definition pad (width : nat) (s : string) : string := (s ++ spaces (width - code_points s))%string.
(** info.py 15-17: INPUT_FORMAT, INIT_FORMAT and OTHER_FORMAT are the same. *)
Definition FORMAT (name value : string) : string := (" " ++ pad 20 name ++ ": " ++ value)%string.

(** The attributes of a stored solution that are read here. *)
Record isoln := mk_isoln {
  is_flag : val; is_coordinate_system : val; is_internal_data : val; is_derivatives : val; is_t_roots : val; is_y_roots : val;
  is_solution_input : val; is_initial_conditions : val }.
(** The attributes of a run; [ii_config_input] and the rest are r_info of Model_Run. *)
Record iinfo := mk_iinfo { ii_config_input : val; ii_config_filename : val; ii_sonic_method : val; ii_version : val; ii_use_E_r : val }.

Inductive stream := OutputFile | Stdout.
(** What was printed so far, and the result. *)
Definition printing (A : Type) := (list (stream * string) * res A)%type.
Definition stop {A} (e : exn) : printing A := ([], Raise e).
Definition then_ {A B} (m : printing A) (f : A -> printing B) : printing B :=
  let '(out, r) := m in
  match r with Ok a => let '(out', r') := f a in (out ++ out', r') | Raise e => (out, Raise e) end.
Definition print (s : stream) (text : string) : printing unit := ([(s, text)], Ok tt).
Definition lift {A} (r : res A) : printing A := ([], r).
Definition print_value (s : stream) (text : res string) : printing unit := then_ (lift text) (print s).

(** vars(obj).items() *)
Definition vars_items (v : val) : res (list (string * val)) := match v with VObj _ fs => Ok fs | _ => Raise TypeError end.

Section Info.
Variables (E : env) (logprob : isoln -> R) (points : isoln -> res (option R * option R * option R * option R)).

Fixpoint print_items (s : stream) (l : list (string * val)) : printing unit :=
  match l with
  | [] => ([], Ok tt)
  | (name, value) :: t => then_ (print s (FORMAT name (text_of E value))) (fun _ => print_items s t)
  end.
Fixpoint print_all (s : stream) (l : list string) : printing unit :=
  match l with [] => ([], Ok tt) | x :: t => then_ (print s x) (fun _ => print_all s t) end.
Definition is_not_none (v : val) : string := match v with VNone => "False" | _ => "True" end.
Definition angle_text (a : option R) : string := text_of E (match a with Some r => VNum (Some r) | None => VNone end).

(** An attribute of what get_solutions answered, which may be None. *)
Definition the_solution (s : final_state isoln) : res isoln :=
  match s with Final s => Ok s | FinalNone | Unset => Raise AttributeError end.

(** info.py 53-84 *)
Definition info_run (filename : string) (r : run isoln iinfo) : printing unit :=
  let i := r_info r in
  then_ (print OutputFile "run properties:") (fun _ =>
  then_ (print OutputFile ("filename: " ++ filename)) (fun _ =>
  then_ (print_value OutputFile (let! label := getattr "label" (ii_config_input i) in Ok ("label: " ++ text_of E label)%string)) (fun _ =>
  then_ (print OutputFile ("config filename: " ++ text_of E (ii_config_filename i))) (fun _ =>
  then_ (print OutputFile ("sonic method: " ++ text_of E (ii_sonic_method i))) (fun _ =>
  then_ (print OutputFile ("DiscSolver version: " ++ text_of E (ii_version i))) (fun _ =>
  then_ (print OutputFile ("using E_r: " ++ text_of E (ii_use_E_r i))) (fun _ =>
  then_ (print OutputFile ("number of solutions: " ++ str_of_nat (List.length (r_solutions r)))) (fun _ =>
  then_ (print OutputFile "config:") (fun _ =>
  then_ (lift (vars_items (ii_config_input i))) (fun l => print_items OutputFile l)))))))))).
(** info.py 85-117 *)
Definition info_status (soln_instance : final_state isoln) : printing unit :=
  then_ (lift (the_solution soln_instance)) (fun s =>
  then_ (print OutputFile ("ODE return flag: " ++ text_of E (is_flag s))) (fun _ =>
  then_ (print OutputFile ("Coordinate System: " ++ text_of E (is_coordinate_system s))) (fun _ =>
  then_ (print OutputFile ("Has internal data: " ++ is_not_none (is_internal_data s))) (fun _ =>
  then_ (print OutputFile ("Has derivatives: " ++ is_not_none (is_derivatives s))) (fun _ =>
  then_ (print OutputFile ("Has t_roots: " ++ is_not_none (is_t_roots s))) (fun _ =>
  print OutputFile ("Has y_roots: " ++ is_not_none (is_y_roots s)))))))).
(** info.py 118-125 with analyse/utils.py 475-479; [quotient] is sonic_θ / c_s_on_v_k (None / number is a TypeError), and this
    print has no file= *)
Definition info_sonic_on_scale (quotient : R -> val -> res val) (r : run isoln iinfo) (soln_instance : final_state isoln) : printing unit :=
  then_ (lift (let! s := the_solution soln_instance in
               let! (_, sonic_θ, _, _) := points s in
               let! label := getattr "label" (ii_config_input (r_info r)) in
               let! scale := getattr "c_s_on_v_k" (is_solution_input s) in
               let! q := match sonic_θ with Some a => quotient a scale | None => Raise TypeError end in
               Ok (text_of E label ++ ": " ++ text_of E q)%string)) (print Stdout).
(** info.py 126-128 *)
Definition info_solutions (r : run isoln iinfo) : printing unit :=
  print_all OutputFile (map fst (sort_solutions logprob (r_solutions r))).
(** info.py 132-135, 136-139 *)
Definition info_listing (title : string) (v : val) : printing unit :=
  then_ (print OutputFile title) (fun _ => then_ (lift (vars_items v)) (fun l => print_items OutputFile l)).
(** info.py 145-168 *)
Definition info_crosses (r : run isoln iinfo) (pts : option R * option R * option R * option R) : printing unit :=
  let '(slow_θ, sonic_θ, alfven_θ, fast_θ) := pts in
  let word := match fast_θ, alfven_θ, sonic_θ, slow_θ with
              | Some _, _, _, _ => "fast"
              | None, Some _, _, _ => "alfven"
              | None, None, Some _, _ => "sonic"
              | None, None, None, Some _ => "slow"
              | None, None, None, None => "none"
              end in
  print_value OutputFile (let! label := getattr "label" (ii_config_input (r_info r)) in Ok (text_of E label ++ ": " ++ word)%string).
(** info.py 169-181 *)
Definition info_points (pts : option R * option R * option R * option R) : printing unit :=
  let '(slow_θ, sonic_θ, alfven_θ, fast_θ) := pts in
  print_all OutputFile
    [FORMAT "slow sonic point" (angle_text slow_θ); FORMAT "sonic point" (angle_text sonic_θ);
     FORMAT "alfven sonic point" (angle_text alfven_θ); FORMAT "fast sonic point" (angle_text fast_θ)].

(** info.py 48-182; AnalysisError (analyse/utils.py 482-486) is a DiscSolverError. *)
Definition info (quotient : R -> val -> res val) (filename group soln_range : string) (r : run isoln iinfo) : printing unit :=
  then_ (lift (get_solutions r (Some soln_range))) (fun soln_instance =>
  if String.eqb group "run" then info_run filename r
  else if String.eqb group "status" then info_status soln_instance
  else if String.eqb group "sonic-on-scale" then info_sonic_on_scale quotient r soln_instance
  else if String.eqb group "solutions" then info_solutions r
  else then_ (lift (the_solution soln_instance)) (fun s =>
    let inp := is_solution_input s in
    let init_con := is_initial_conditions s in
    if String.eqb group "input" then info_listing "input settings:" inp
    else if String.eqb group "initial-conditions" then info_listing "initial conditions:" init_con
    else then_ (lift (points s)) (fun pts =>
      if String.eqb group "crosses-points" then info_crosses r pts
      else if String.eqb group "sonic-points" then info_points pts
      else stop DiscSolverError))).

(** info.py 20-28 after analyse/utils.py 354-356. *)
Definition INFO_GROUPS : list string :=
  ["run"; "status"; "input"; "initial-conditions"; "sonic-points"; "crosses-points"; "sonic-on-scale"; "solutions"].
Definition info_parser : parser :=
  mk_parser [("soln_file", Text); ("soln_range", Text); ("group", Choice INFO_GROUPS)] logging_options [stderr_group].

Inductive info_outcome := InfoUsage | Printed (p : printing unit).
(** info.py 31-45 under analyse/utils.py 330-370 and 461-472; [read]: opening the file and reading its run. *)
Definition info_main (rd : readers) (quotient : R -> val -> res val) (read : string -> res (run isoln iinfo)) (cl : command_line) : info_outcome :=
  match parse_args rd info_parser cl with
  | None => InfoUsage
  | Some args => Printed (
      then_ (lift (let! g := dgetitem "group" args in let! f := dgetitem "soln_file" args in let! n := dgetitem "soln_range" args in Ok (g, f, n))) (fun p =>
      match p with
      | (VStr group, VStr soln_file, VStr soln_range) =>
          then_ (lift (read soln_file)) (fun r => info quotient soln_file group soln_range r)
      | _ => stop TypeError
      end))
  end.
End Info.
