(** The MCMC method (src/disc_solver/solve/mcmc.py), the single method (solve/single.py) and the success each reports.

    emcee's sampler is modelled by the sequence of points it evaluates (any sequence; with store_internal etc. passed on).
    The midplane conditions, the solve and the log probability of a solution are arguments. *)
From Coq Require Import String List Bool ZArith Reals.
From Verif Require Import Lib_Py Model_FormatTables Model_Format Model_Inputs Model_Run.
Import ListNotations.
Open Scope string_scope. Open Scope list_scope.

(** mcmc.py:29-55: the names of the enumeration in order of their values 0, 1, ... *)
Definition generate_sysvars_enum (soln_input : val) : res (list string) :=
  let! with_ := match getattr "mcmc_vars" soln_input with
                | Ok VNone | Raise AttributeError => Ok (true, true, true)
                | Ok m => let! r := getattr "with_v_r" m in let! a := getattr "with_v_a" m in let! k := getattr "with_v_k" m in
                          Ok (is_true r, is_true a, is_true k)
                | Raise e => Raise e
                end in
  let '(r, a, k) := with_ in
  Ok ("γ" :: (if r then ["v_rin_on_c_s"] else []) ++ (if a then ["v_a_on_c_s"] else []) ++ (if k then ["c_s_on_v_k"] else [])).
(** mcmc.py:58-64. *)
Fixpoint solution_input_to_sys_vars (soln_input : val) (sys_vars_enum : list string) : res (list val) :=
  match sys_vars_enum with
  | [] => Ok []
  | f :: t => let! x := getattr f soln_input in let! l := solution_input_to_sys_vars soln_input t in Ok (x :: l)
  end.
(** The loop of mcmc.py:72-73; sys_vars[v] of a vector that is too short is an IndexError. *)
Fixpoint set_sys_vars (names : list string) (sys_vars : list val) (soln_input : val) : res val :=
  match names, sys_vars with
  | [], _ => Ok soln_input
  | _ :: _, [] => Raise IndexError
  | f :: t, x :: l => let! s := setattr f x soln_input in set_sys_vars t l s
  end.
(** mcmc.py:67-74. *)
Definition sys_vars_to_solution_input (E : env) (sys_vars : list val) (old_soln_input : val) (sys_vars_enum : list string) : res val :=
  let! fs := fields_of old_soln_input in
  let! soln_input := construct E "SolutionInput" fs in
  set_sys_vars sys_vars_enum sys_vars soln_input.
(** x <= 0; a NaN is not. *)
Definition le_zero (v : val) : res bool :=
  match num_of v with
  | Some (Some x) => Ok (if Rle_dec x 0 then true else false)
  | Some None => Ok false
  | None => Raise TypeError
  end.
(** mcmc.py:182-194. *)
Fixpoint none_le_zero (names : list string) (soln_input : val) : res bool :=
  match names with
  | [] => Ok true
  | f :: t => let! x := getattr f soln_input in let! b := le_zero x in if b then Ok false else none_le_zero t soln_input
  end.
Definition solution_input_valid (soln_input : val) : res bool :=
  none_le_zero ["v_rin_on_c_s"; "γ"; "v_a_on_c_s"; "c_s_on_v_k"] soln_input.

Section Mcmc.
Context {Sol Cond I : Type}.
(** A log probability is a real or not finite (None: an infinity or NaN). *)
Variables (E : env) (define_conditions : val -> res Cond) (solution : val -> Cond -> res Sol) (get_logprob_of_soln : Sol -> option R).

(** mcmc.py:102-108.  [lg_best]: None is minus infinity. *)
Record logprob_state := mk_lg { lg_run : run Sol I; lg_best : option R; lg_index : option string }.
Definition lg_new (r : run Sol I) : logprob_state := mk_lg r None None.
Definition exceeds (x : R) (best : option R) : bool := match best with None => true | Some b => if Rlt_dec b x then true else false end.
(** mcmc.py:110-141: the new state and the value returned (None: not finite). *)
Definition logprob_call (soln_input : val) (sys_vars_enum : list string) (st : logprob_state) (sys_vars : list val)
  : logprob_state * res (option R) :=
  match sys_vars_to_solution_input E sys_vars soln_input sys_vars_enum with
  | Raise e => (st, Raise e)
  | Ok new_soln_input =>
      match solution_input_valid new_soln_input with
      | Raise e => (st, Raise e)
      | Ok false => (st, Ok None)
      | Ok true =>
          match define_conditions new_soln_input with
          | Raise SolverError => (st, Ok None)
          | Raise e => (st, Raise e)
          | Ok conditions =>
              match solution new_soln_input conditions with
              | Raise SolverError => (st, Ok None)
              | Raise e => (st, Raise e)
              | Ok soln =>
                  match get_logprob_of_soln soln with
                  | None => (st, Ok None)
                  | Some logprob =>
                      match add_solution soln (r_solutions (lg_run st)) with
                      | Raise e => (st, Raise e)
                      | Ok (soln_index, d) =>
                          let r := with_solutions (lg_run st) d in
                          (if exceeds logprob (lg_best st) then mk_lg r (Some logprob) (Some soln_index)
                           else mk_lg r (lg_best st) (lg_index st), Ok (Some logprob))
                      end
                  end
              end
          end
      end
  end.
(** The evaluations of a sampler, which ends at the first one that raises. *)
Fixpoint evaluations (soln_input : val) (enum : list string) (st : logprob_state) (points : list (list val)) : logprob_state * res unit :=
  match points with
  | [] => (st, Ok tt)
  | p :: t => match logprob_call soln_input enum st p with
              | (st, Ok _) => evaluations soln_input enum st t
              | (st, Raise e) => (st, Raise e)
              end
  end.
(** mcmc.py:143-150. *)
Definition best_solution (st : logprob_state) : res (option Sol) :=
  match lg_index st with
  | None => Ok None
  | Some k => let! s := dgetitem k (r_solutions (lg_run st)) in Ok (Some s)
  end.
(** mcmc.py:77-97: the run left behind and the value returned. *)
Definition mcmc_solver (soln_input : val) (r : run Sol I) (points : list (list val)) : run Sol I * res bool :=
  match generate_sysvars_enum soln_input with
  | Raise e => (r, Raise e)
  | Ok enum =>
      let '(st, out) := evaluations soln_input enum (lg_new r) points in
      match out with
      | Raise e => (lg_run st, Raise e)
      | Ok tt => match best_solution st with
                 | Raise e => (lg_run st, Raise e)
                 | Ok b => match set_final (lg_run st) b with
                           | Raise e => (lg_run st, Raise e)
                           | Ok r => (r, Ok true)
                           end
                 end
      end
  end.

(** single.py:10-21. *)
Definition single_solver (soln_input : val) (r : run Sol I) (no_final_solution : bool) : run Sol I * res bool :=
  match define_conditions soln_input with
  | Raise e => (r, Raise e)
  | Ok conditions =>
      match solution soln_input conditions with
      | Raise e => (r, Raise e)
      | Ok soln =>
          match add_solution soln (r_solutions r) with
          | Raise e => (r, Raise e)
          | Ok (_, d) =>
              let r := with_solutions r d in
              if no_final_solution then (r, Ok true)
              else match get_last_solution (r_solutions r) with
                   | Raise e => (r, Raise e)
                   | Ok last => match set_final r (Some last) with
                                | Raise e => (r, Raise e)
                                | Ok r => (r, Ok true)
                                end
                   end
          end
      end
  end.
End Mcmc.
