(** The whole MCMC run (src/disc_solver/solve/mcmc.py): where the walkers start, the log probability of a solution, and what
    the sampler makes of the values it is given.

    emcee is outside the repository.  What is taken from it: [EnsembleSampler.run_mcmc] evaluates all starting positions, then
    in each iteration the proposals for one half of the walkers and then for the other half; it calls the log probability
    function once for each point of such a group, in order; and it raises ValueError when a value in the group is NaN.  The
    proposals may depend on all values returned before.  The checks it makes of the starting positions are an argument.
    Model_Mcmc treats the same code for an arbitrary sequence of points. *)
From Coq Require Import String List Bool ZArith Reals.
From Verif Require Import Lib_Py Model_FormatTables Model_Format Model_Inputs Model_Run Model_Mcmc.
Import ListNotations.
Open Scope string_scope. Open Scope list_scope.

(** Floating-point operations on reals and NaN (None). *)
Definition op1 (f : R -> R) (x : option R) : option R := match x with Some a => Some (f a) | None => None end.
Definition op2 (f : R -> R -> R) (x y : option R) : option R := match x, y with Some a, Some b => Some (f a b) | _, _ => None end.
Definition greater (x y : option R) : bool := match x, y with Some a, Some b => if Rlt_dec b a then true else false | _, _ => false end.

(** Python's max of an array (mcmc.py:157): the first value, replaced by each later one that is greater. *)
Definition py_max (l : list (option R)) : res (option R) :=
  match l with
  | [] => Raise ValueError
  | x :: t => Ok (fold_left (fun m y => if greater y m then y else m) t x)
  end.
(** numpy.diff. *)
Fixpoint diff (l : list (option R)) : list (option R) :=
  match l with
  | a :: (b :: _) as t => op2 Rminus b a :: diff t
  | _ => []
  end.
Definition squares (l : list (option R)) : list (option R) := map (fun x => op2 Rmult x x) l.
(** Python's sum. *)
Definition py_sum (l : list (option R)) : option R := fold_left (op2 Rplus) l (Some 0%R).
(** mcmc.py:164-169, from the column of v_θ. *)
Definition get_outflow_rate_probability (v_θ : list (option R)) : option R :=
  op1 Ropp (py_sum (squares (diff (squares (diff v_θ))))).
(** mcmc.py:25-26. *)
Definition TARGETED_PROB_WEIGHTING : R := 10.
Definition OUTFLOW_RATE_PROB_WEIGHTING : R := 1.
(** mcmc.py:153-161. *)
Definition get_logprob_of_soln (v_θ : list (option R)) : res (option R) :=
  let! m := py_max v_θ in
  let targeted_prob := op1 (fun m => (- exp (- m))%R) m in
  Ok (op2 Rplus (op1 (fun p => (p * TARGETED_PROB_WEIGHTING)%R) targeted_prob)
                (op1 (fun p => (p * OUTFLOW_RATE_PROB_WEIGHTING)%R) (get_outflow_rate_probability v_θ))).

(** mcmc.py:24. *)
Definition INITIAL_SPREAD : R := / 10.
(** One component of sys_vars * (INITIAL_SPREAD * noise + 1): a value that is no number cannot be multiplied. *)
Definition moved (x : val) (noise : R) : res val :=
  match num_of x with
  | Some r => Ok (VNum (op1 (fun r => (r * (INITIAL_SPREAD * noise + 1))%R) r))
  | None => Raise TypeError
  end.
Fixpoint moved_all (sys_vars : list val) (noise : nat -> R) (j : nat) : res (list val) :=
  match sys_vars with
  | [] => Ok []
  | x :: t => let! y := moved x (noise j) in let! l := moved_all t noise (S j) in Ok (y :: l)
  end.
Fixpoint rows (sys_vars : list val) (noise : nat -> nat -> R) (i n : nat) : res (list (list val)) :=
  match n with
  | O => Ok []
  | S n => let! p := moved_all sys_vars (noise i) 0 in let! l := rows sys_vars noise (S i) n in Ok (p :: l)
  end.
(** mcmc.py:172-179; [noise] is what numpy.random.randn draws.  randn of a negative number of rows is a ValueError. *)
Definition generate_initial_positions (noise : nat -> nat -> R) (soln_input : val) (enum : list string) : res (list (list val)) :=
  let! sys_vars := solution_input_to_sys_vars soln_input enum in
  let! n := getattr "nwalkers" soln_input in
  match n with
  | VInt z => if (z <? 0)%Z then Raise ValueError else rows sys_vars noise 0 (Z.to_nat z)
  | _ => Raise TypeError
  end.

(** What the log probability function returns. *)
Inductive logp := Finite (x : R) | Minus_infinity | Not_a_number.
Section Run.
Context {Sol Cond I : Type}.
Variables (E : env) (define_conditions : val -> res Cond) (solution : val -> Cond -> res Sol) (column : Sol -> list (option R)).

(** mcmc.py:113-141, with the two values that are not finite told apart. *)
Definition logprob_of (soln_input : val) (sys_vars_enum : list string) (st : logprob_state (Sol := Sol) (I := I)) (sys_vars : list val)
  : logprob_state (Sol := Sol) (I := I) * res logp :=
  match sys_vars_to_solution_input E sys_vars soln_input sys_vars_enum with
  | Raise e => (st, Raise e)
  | Ok new_soln_input =>
      match solution_input_valid new_soln_input with
      | Raise e => (st, Raise e)
      | Ok false => (st, Ok Minus_infinity)
      | Ok true =>
          match define_conditions new_soln_input with
          | Raise SolverError => (st, Ok Minus_infinity)
          | Raise e => (st, Raise e)
          | Ok conditions =>
              match solution new_soln_input conditions with
              | Raise SolverError => (st, Ok Minus_infinity)
              | Raise e => (st, Raise e)
              | Ok soln =>
                  match get_logprob_of_soln (column soln) with
                  | Raise e => (st, Raise e)
                  | Ok None => (st, Ok Not_a_number)
                  | Ok (Some logprob) =>
                      match add_solution soln (r_solutions (lg_run st)) with
                      | Raise e => (st, Raise e)
                      | Ok (soln_index, d) =>
                          let r := with_solutions (lg_run st) d in
                          (if exceeds logprob (lg_best st) then mk_lg r (Some logprob) (Some soln_index)
                           else mk_lg r (lg_best st) (lg_index st), Ok (Finite logprob))
                      end
                  end
              end
          end
      end
  end.
(** The values of a group of points. *)
Fixpoint values_of (inp : val) (enum : list string) (st : logprob_state (Sol := Sol) (I := I)) (points : list (list val))
  : logprob_state (Sol := Sol) (I := I) * res (list logp) :=
  match points with
  | [] => (st, Ok [])
  | p :: t =>
      match logprob_of inp enum st p with
      | (st, Raise e) => (st, Raise e)
      | (st, Ok v) => match values_of inp enum st t with
                      | (st, Ok l) => (st, Ok (v :: l))
                      | (st, Raise e) => (st, Raise e)
                      end
      end
  end.
Definition is_nan (v : logp) : bool := match v with Not_a_number => true | _ => false end.
(** emcee's compute_log_prob: the values of a group, and ValueError if one is NaN. *)
Definition compute_log_prob (inp : val) (enum : list string) (st : logprob_state (Sol := Sol) (I := I)) (points : list (list val))
  : logprob_state (Sol := Sol) (I := I) * res (list logp) :=
  match values_of inp enum st points with
  | (st, Raise e) => (st, Raise e)
  | (st, Ok l) => (st, if existsb is_nan l then Raise ValueError else Ok l)
  end.
(** [n] further groups; [propose] gives the next group from all groups evaluated so far and their values. *)
Fixpoint groups (propose : list (list (list val) * list logp) -> list (list val)) (inp : val) (enum : list string) (n : nat)
  (past : list (list (list val) * list logp)) (st : logprob_state (Sol := Sol) (I := I))
  : logprob_state (Sol := Sol) (I := I) * res (list (list (list val) * list logp)) :=
  match n with
  | O => (st, Ok past)
  | S n => let points := propose past in
           match compute_log_prob inp enum st points with
           | (st, Raise e) => (st, Raise e)
           | (st, Ok l) => groups propose inp enum n (past ++ [(points, l)]) st
           end
  end.
(** mcmc.py:77-97.  [check] is emcee's check of the number of walkers, of dimensions and of the starting positions. *)
Definition solver (check : list (list val) -> res unit) (propose : list (list (list val) * list logp) -> list (list val))
  (noise : nat -> nat -> R) (soln_input : val) (r : run Sol I) : run Sol I * res bool :=
  let start := let! enum := generate_sysvars_enum soln_input in
               let! positions := generate_initial_positions noise soln_input enum in
               let! n := getattr "iterations" soln_input in
               let! n := match n with VInt z => Ok (Z.to_nat z) | _ => Raise TypeError end in
               let! ok := check positions in
               Ok (enum, positions, n) in
  match start with
  | Raise e => (r, Raise e)
  | Ok (enum, positions, n) =>
      match compute_log_prob soln_input enum (lg_new r) positions with
      | (st, Raise e) => (lg_run st, Raise e)
      | (st, Ok l) =>
          match groups propose soln_input enum (n + n) [(positions, l)] st with
          | (st, Raise e) => (lg_run st, Raise e)
          | (st, Ok _) =>
              match best_solution st with
              | Raise e => (lg_run st, Raise e)
              | Ok b => match set_final (lg_run st) b with
                        | Raise e => (lg_run st, Raise e)
                        | Ok r => (r, Ok true)
                        end
              end
          end
      end
  end.
End Run.
