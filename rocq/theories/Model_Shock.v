(** The search for shocks: src/disc_solver/solve/shock.py:61-204, 230-241.

    Each test is a task of a multiprocessing pool: the ShockFinder, with its run, is sent to the worker with every task, so that
    every task starts from the same empty shock run; the file names (label, time and worker) are an argument.  What is raised inside
    a task is caught there and printed.  Solving and plotting are arguments.  Not modelled: printing. *)
From Coq Require Import String List Bool Reals Arith.
From Verif Require Import Lib_Py Model_Index Model_Array Model_Run Model_Solve Model_Waves Model_Midplane.
Import ListNotations.
Open Scope list_scope. Open Scope R_scope.

(** numpy.nanargmax: the first index of the largest number; ValueError without one (all NaN, or empty). *)
Fixpoint nanargmax_from (i : nat) (best : option (nat * R)) (l : list num) : option (nat * R) :=
  match l with
  | [] => best
  | x :: t => nanargmax_from (S i)
      (match x, best with
       | None, _ => best
       | Some v, None => Some (i, v)
       | Some v, Some (_, w) => if Rltb w v then Some (i, v) else best
       end) t
  end.
Definition nanargmax (l : list num) : res nat :=
  match nanargmax_from 0 None l with Some (i, _) => Ok i | None => Raise Lib_Py.ValueError end.

Section Find.
Context {A : Type}.
Variable v_θ : A -> num.
(** shock.py:61-81: the jumpable angles and values, as pairs (shock.py:182-184). *)
Definition find_shock_test_values (soln : list (R * A)) (min_v_θ_pre max_v_θ_pre min_angle : R) (post_max : bool) : res (list (R * A)) :=
  let min_angle_rad := radians min_angle in
  let! min_angle_rad :=
    if post_max then
      let! max_v_θ_index := nanargmax (map (fun p => v_θ (snd p)) soln) in
      let a := nth max_v_θ_index (map fst soln) 0 in
      Ok (if Rltb min_angle_rad a then a else min_angle_rad)
    else Ok min_angle_rad in
  Ok (filter (fun p => nlt (Some min_v_θ_pre) (v_θ (snd p)) && nlt (v_θ (snd p)) (Some max_v_θ_pre) && Rltb min_angle_rad (fst p)) soln).
End Find.

Section Shock.
Context {Sol I : Type}.
Variable solve : vec -> list R -> res Sol.       (* solution(..., modified_initial_conditions=...) from these values at these angles *)
Variable num_angles : Sol -> nat.
Variable plot : Sol -> res unit.
Variable angles : list R.
Variable dir_exists : bool.                       (* whether output_dir exists *)

(** shock.py:197-204 and analyse/plot.py:66-93: the figure is of the solution the finished run names "final", a figure of which
    the argument draws; without one the generation fails (an attribute of None or of the placeholder). *)
Definition plot_shock_solution (r : run Sol I) : res unit :=
  let! s := get_solutions r (Some "final"%string) in
  match s with Model_Run.Final s => plot s | _ => Raise AttributeError end.
(** shock.py:109-163. *)
Definition shock_task (r : run Sol I) (name : string) (search_value : R * vec) (fs : files (Sol := Sol) (I := I)) : files * option string :=
  let '(jump_θ, pre_jump_values) := search_value in
  match solve (post_jump_values pre_jump_values) (post_jump_angles angles jump_θ) with
  | Raise _ => (fs, None)
  | Ok shock_soln =>
      if (num_angles shock_soln <? 5)%nat then (fs, None) else
      if negb dir_exists then (fs, None) else
      match create name r fs with
      | Raise _ => (fs, None)
      | Ok fs =>
          match add_solution shock_soln (r_solutions r) with
          | Raise _ => (fs, None)
          | Ok (_, d) =>
              match finalise (with_solutions r d) with
              | Raise _ => (dset name (with_solutions r d) fs, None)
              | Ok r2 => (dset name r2 fs, match plot_shock_solution r2 with Raise _ => None | Ok _ => Some name end)
              end
          end
      end
  end.
(** The tasks in the order the workers run them. *)
Fixpoint shock_tasks (r : run Sol I) (tasks : list (string * (R * vec))) (fs : files) : files * list (option string) :=
  match tasks with
  | [] => (fs, [])
  | (name, v) :: t =>
      let '(fs, x) := shock_task r name v fs in
      let '(fs, xs) := shock_tasks r t fs in (fs, x :: xs)
  end.
(** shock.py:167-194, 230-241: names is the names of the files of the tasks. *)
Definition shock_from_file (base : run Sol I) (filename : string) (soln_range : string) (soln : list (R * vec)) (names : list string) (fs : files)
  : files * res (list (option string)) :=
  match find_shock_test_values (fun v : vec => Some (v iv_θ)) soln 1 10 40 true with
  | Raise e => (fs, Raise e)
  | Ok search_values =>
      let '(fs, xs) := shock_tasks (create_shock_run base filename soln_range) (combine names search_values) fs in (fs, Ok xs)
  end.
End Shock.
