(** The fast crosser (src/disc_solver/solve/fast_crosser.py).

    Radial velocities are exact reals, qualities are floats that may be NaN.  Not modelled: logging.  The step and single methods,
    the parts of an input and the parts of a solution are arguments. *)
From Coq Require Import String List Bool ZArith Reals.
From Verif Require Import Lib_Py Model_Run Model_Array Model_Stepper.
Import ListNotations.
Local Open Scope R_scope.

(** fast_crosser.py:27. *)
Definition GOLDEN_RATIO : R := (1 + sqrt 5) / 2.
(** fast_crosser.py:30-37. *)
Inductive phase := STARTING | FINDING_MAX | FINDING_MIN | BISECTING.
(** fast_crosser.py:58-66: limits and phase.  min and max are None at first and set before they are read: 0 stands for that None. *)
Record cstate := mk_c { c_phase : phase; c_min : R; c_min_val : num; c_max : R; c_max_val : num; c_mid : option (R * num) }.
Definition c_new : cstate := mk_c STARTING 0 None 0 None None.
(** fast_crosser.py:79-161, given the current velocity and quality: the new state and the next velocity. *)
Definition cross (step_size : R) (st : cstate) (v : R) (q : num) : cstate * res R :=
  match c_phase st with
  | STARTING => (mk_c FINDING_MAX v q v q (c_mid st), Ok (v + step_size))
  | FINDING_MAX =>
      if nlt (c_max_val st) q then (mk_c FINDING_MAX (c_min st) (c_min_val st) v q (c_mid st), Ok (v + step_size))
      else (mk_c FINDING_MIN (c_min st) (c_min_val st) (c_max st) (c_max_val st) (c_mid st), Ok (c_min st - step_size))
  | FINDING_MIN =>
      if nlt (c_min_val st) q then (mk_c FINDING_MIN v q (c_max st) (c_max_val st) (c_mid st), Ok (v - step_size))
      else let st := mk_c BISECTING (c_min st) (c_min_val st) (c_max st) (c_max_val st) (c_mid st) in
           if Reqb (c_min st) (c_max st) then (st, Raise StepperError)
           else (st, Ok (c_min st + (c_min st - c_max st) / (GOLDEN_RATIO - 1)))
  | BISECTING =>
      match c_mid st with
      | None => (mk_c BISECTING (c_min st) (c_min_val st) (c_max st) (c_max_val st) (Some (v, q)), Ok (c_min st + (c_max st - v)))
      | Some (mid, mid_val) =>
          let '(lmid, lval, hmid, hval) := if Rlt_dec v mid then (v, q, mid, mid_val) else (mid, mid_val, v, q) in
          let st := if nlt hval lval
                    then mk_c BISECTING (c_min st) (c_min_val st) hmid hval (Some (lmid, lval))
                    else mk_c BISECTING lmid lval (c_max st) (c_max_val st) (Some (hmid, hval)) in
          let mid := match c_mid st with Some (m, _) => m | None => 0 end in
          let new_v := c_min st + (c_max st - mid) in
          if Reqb new_v v then (st, Raise StepperStop) else (st, Ok new_v)
      end
  end.

Section Crosser.
Context {Inp Sol I : Type}.
(** Parts of an input and of a solution: v_rin_on_c_s; get_next_input (fast_crosser.py:51-56), which also restores stop and
    num_angles; the update of lines 189-192; and solution_input, compute_quality (lines 40-44), whether the flag is not None. *)
Variables (v_r : Inp -> R) (next_input : Inp -> R -> Inp) (final_input : Inp -> Inp).
Variables (s_input : Sol -> Inp) (quality : Sol -> num) (flagged : Sol -> bool).
(** step_solver and single_solver with no_final_solution=True; get_known_broken_solution (solution.py:787-805). *)
Variables (step_solver single_solver : Inp -> run Sol I -> run Sol I * res bool) (broken : Inp -> Sol).
Record cworld := mk_cw { cw_run : run Sol I; cw_st : cstate }.

(** stepper.py:138-150. *)
Definition cross_writer (r : run Sol I) (soln : Sol) : run Sol I * res unit :=
  if flagged soln then
    match add_solution soln (r_solutions r) with
    | Ok (_, d) => (with_solutions r d, Ok tt)
    | Raise e => (r, Raise e)
    end
  else (r, Ok tt).
(** fast_crosser.py:51-56, 74-161.  get_next_input updates the dict it is given, and that dict is the solution's input's own
    __dict__ (line 74): the second component is the state in which the call leaves soln.solution_input. *)
Definition cross_input (step_size : R) (st : cstate) (inp : Inp) (q : num) : cstate * (Inp * res Inp) :=
  let '(st, out) := cross step_size st (v_r inp) q in
  (st, match out with
       | Ok v => let inp := next_input inp v in (inp, Ok inp)
       | Raise e => (inp, Raise e)
       end).
(** fast_crosser.py:68-161.  The run is attached to an open file, so a stored solution is the value at the time it was added. *)
Definition cross_stepper (step_size : R) (w : cworld) (soln : Sol) (attempt : nat) : cworld * res Inp :=
  match cross_writer (cw_run w) soln with
  | (r, Raise e) => (mk_cw r (cw_st w), Raise e)
  | (r, Ok tt) => let '(st, (_, out)) := cross_input step_size (cw_st w) (s_input soln) (quality soln) in (mk_cw r st, out)
  end.
(** Whether the exception is a SolverError. *)
Definition is_solver_error (e : exn) : bool := match e with SolverError | StepperError | StepperStop => true | _ => false end.
(** fast_crosser.py:177-197. *)
Definition cross_solution (w : cworld) (inp : Inp) : cworld * res (Sol * bool) :=
  match step_solver inp (cw_run w) with
  | (r, Raise e) => (mk_cw r (cw_st w), if is_solver_error e then Ok (broken inp, false) else Raise e)
  | (r, Ok _) =>
      match get_last_solution (r_solutions r) with
      | Raise e => (mk_cw r (cw_st w), Raise e)
      | Ok s => match single_solver (final_input (s_input s)) r with
                | (r, Raise e) => (mk_cw r (cw_st w), Raise e)
                | (r, Ok _) => (mk_cw r (cw_st w), let! s := get_last_solution (r_solutions r) in Ok (s, false))
                end
      end
  end.
(** stepper.py:153-183 with no_final_solution=True. *)
Definition cross_cleanup (w : cworld) (soln : Sol) (attempt : nat) : cworld * res (option Sol) :=
  let '(r, out) := cross_writer (cw_run w) soln in (mk_cw r (cw_st w), let! _ := out in Ok None).
Definition cross_alternate (w : cworld) (attempt : nat) : cworld * res (option Sol) := (w, Ok None).
(** fast_crosser.py:202-236. *)
Definition crosser (soln_input : Inp) (r : run Sol I) (num_attempts : nat) : run Sol I * res bool :=
  let '(w, best) := binary_searcher cross_solution cross_cleanup (cross_stepper (/ 100 * v_r soln_input)) cross_alternate
                      (mk_cw r c_new) soln_input num_attempts in
  let r := cw_run w in
  match best with
  | Raise e => (r, Raise e)
  | Ok best_solution =>
      let fin := match r_final r with
                 | Final _ => Ok r
                 | _ => match best_solution with
                        | Some (Some s) => set_final r (Some s)
                        | _ => let! s := get_last_solution (r_solutions r) in set_final r (Some s)
                        end
                 end in
      match fin with
      | Raise e => (r, Raise e)
      | Ok r => (r, Ok (match r_final r with FinalNone => false | _ => true end))
      end
  end.
End Crosser.
