(** Batches of tasks given to worker processes: utils.py 382-394 (nicer_mp_pool) and the loops over pool.imap in
    solve/csvrunner.py 107-116, solve/hdf5runner.py 107-114 and solve/shock.py 186-194; the ds-shock command line, shock.py 207-227.

    multiprocessing.Pool is modelled by the steps it can take: a free worker takes the next task that was not taken, a running task
    ends, the main process is handed the result of the next task in order once that task has ended.  A task changes what the
    processes share (the files) in one step when it ends; that it is given a copy of everything else is part of its definition.
    The exception of a task is raised where its result is taken.  close() lets the tasks still there be done and join() waits for
    them.  Every task is taken to end. *)
From Coq Require Import String List Bool ZArith Reals.
From Verif Require Import Lib_Py Model_Format Model_Inputs Model_Csv Model_Options Model_Run Model_Solve Model_Index Model_Waves Model_Midplane Model_Shock Model_SolverOptions.
Import ListNotations.
Open Scope string_scope. Open Scope list_scope.

(** Pool(nworkers): the number of processors for None, at least one otherwise. *)
Definition create_pool (cpus : nat) (nworkers : option Z) : res nat :=
  match nworkers with
  | None => Ok cpus
  | Some z => if (z <? 1)%Z then Raise Lib_Py.ValueError else Ok (Z.to_nat z)
  end.
(** utils.py 382-394 up to the yield: if Pool raises, the finally block reads the name [pool], which is not bound; UnboundLocalError is
    a NameError. *)
Definition nicer_mp_pool (cpus : nat) (nworkers : option Z) : res nat :=
  match create_pool cpus nworkers with Raise _ => Raise NameError | Ok n => Ok n end.

Section Pool.
Context {W A E : Type}.
Variable task : nat -> W -> W * res A.          (* what task i does *)
Variable total : nat.                           (* how many tasks there are *)
Variable body : A -> list E * option exn.       (* the body of the loop: what it writes, and what it raises *)
Variable workers : nat.

(** Where the main process is: in the loop; in the finally block, with the exception it is there for; past it. *)
Inductive phase := Looping | Leaving (e : option exn) | Left (e : option exn).
Record batch := mk_batch {
  b_world : W; b_waiting : list nat; b_running : list nat; b_done : list (nat * res A); b_next : nat; b_out : list E; b_phase : phase }.
Definition initial (w : W) : batch := mk_batch w (seq 0 total) [] [] 0 [] Looping.

Definition result_of (i : nat) (l : list (nat * res A)) : option (res A) :=
  match find (fun p => Nat.eqb i (fst p)) l with Some (_, r) => Some r | None => None end.

Inductive step : batch -> batch -> Prop :=
| take_task : forall w i t running results next out ph, (List.length running < workers)%nat ->
    step (mk_batch w (i :: t) running results next out ph) (mk_batch w t (i :: running) results next out ph)
| end_task : forall w waiting before i after results next out ph w' r, task i w = (w', r) ->
    step (mk_batch w waiting (before ++ i :: after) results next out ph) (mk_batch w' waiting (before ++ after) ((i, r) :: results) next out ph)
| hand_over : forall w waiting running results next out a es, (next < total)%nat -> result_of next results = Some (Ok a) -> body a = (es, None) ->
    step (mk_batch w waiting running results next out Looping) (mk_batch w waiting running results (S next) (out ++ es) Looping)
| body_raises : forall w waiting running results next out a es e, (next < total)%nat -> result_of next results = Some (Ok a) -> body a = (es, Some e) ->
    step (mk_batch w waiting running results next out Looping) (mk_batch w waiting running results (S next) (out ++ es) (Leaving (Some e)))
| task_raised : forall w waiting running results next out e, (next < total)%nat -> result_of next results = Some (Raise e) ->
    step (mk_batch w waiting running results next out Looping) (mk_batch w waiting running results (S next) out (Leaving (Some e)))
| loop_ends : forall w waiting running results out,
    step (mk_batch w waiting running results total out Looping) (mk_batch w waiting running results total out (Leaving None))
| joined : forall w results next out e,
    step (mk_batch w [] [] results next out (Leaving e)) (mk_batch w [] [] results next out (Left e)).
Inductive steps : batch -> batch -> Prop :=
| steps_none : forall s, steps s s
| steps_more : forall s t u, steps s t -> step t u -> steps s u.
End Pool.

(** ds-csvrunner: csvrunner.py 107-116; writing a row, or a message. *)
Inductive csv_event := Row (text : string) | No_solution.
Definition csv_body (E : env) (best_input : option (dict val)) : list csv_event * option exn :=
  match best_input with
  | None => ([No_solution], None)
  | Some d => match dict_row E SOLUTION_INPUT_FIELDS d with Ok row => ([Row row], None) | Raise e => ([], Some e) end
  end.
Definition rows_text (l : list csv_event) : string := String.concat "" (flat_map (fun e => match e with Row s => [s] | No_solution => [] end) l).
(** csvrunner.py 93-107: what is in the output before the pool, and how many workers are given which inputs. *)
Definition csvrunner_start (cpus : nat) (nworkers : option Z) (S : sniffer) (meta : list (string * string)) (input label : string)
  : string * res (nat * list (dict val)) :=
  match get_csv_inputs S input label with
  | Raise e => ("", Raise e)
  | Ok inputs => ((metadata meta ++ csv_row SOLUTION_INPUT_FIELDS)%string, let! n := nicer_mp_pool cpus nworkers in Ok (n, inputs))
  end.
(** hdf5runner.py 113-114; a result is the flag the method answered, or None. *)
Definition hdf5_body (result : option bool) : list string * option exn :=
  (match result with Some true => [] | _ => ["Solver failed for input"] end, None).

(** ** ds-shock *)
(** The loop of shock.py 193-194. *)
Definition shock_body (png : string -> string) (x : option string) : list string * option exn :=
  (match x with Some f => [("New plot " ++ png f ++ " for " ++ f)%string] | None => [] end, None).

(** shock.py 207-220 with analyse/utils.py 354-356. *)
Definition shock_parser : parser :=
  mk_parser [("soln_file", Text); ("soln_range", Text)] (logging_options ++ worker_options) [stderr_group].

Section Shock.
Context {Sol I : Type}.
Variables (rd : readers) (cpus : nat).
Variable load : string -> res (run Sol I).
(** angles and states of a solution *)
Variable samples : Sol -> list (R * vec).

(** What the command does: refuse the command line; end with an exception after printing; or give these tests, of a run like this, to
    this many workers after printing. *)
Inductive shock_start :=
| ShockUsage
| ShockStops (printed : list string) (e : exn)
| ShockTests (printed : list string) (workers : nat) (r : run Sol I) (tests : list (R * vec)).

(** shock.py 230-242 and 166-186 *)
Definition shock_found (soln_file soln_range : string) (nworkers : option Z) (r : run Sol I) : shock_start :=
  let looking := ("Looking at " ++ soln_file ++ " solution " ++ soln_range)%string in
  match get_solutions r (Some soln_range) with
  | Raise e => ShockStops [looking] e
  | Ok (Model_Run.Final s) =>
      match find_shock_test_values (fun v : vec => Some (v iv_θ)) (samples s) 1 10 40 true with
      | Raise e => ShockStops [looking] e
      | Ok tests =>
          let printed := [looking; ("possible values to check: " ++ str_of_nat (List.length tests))%string] in
          match nicer_mp_pool cpus nworkers with
          | Raise e => ShockStops printed e
          | Ok n => ShockTests printed n (create_shock_run r soln_file soln_range) tests
          end
      end
  | Ok _ => ShockStops [looking] AttributeError
  end.
(** shock.py 215-227 *)
Definition shock_main (cl : command_line) : shock_start :=
  match parse_args rd shock_parser cl with
  | None => ShockUsage
  | Some args =>
      match dget "soln_file" args, dget "soln_range" args, dget "nworkers" args with
      | Some (VStr soln_file), Some (VStr soln_range), Some n =>
          match load soln_file with
          | Raise e => ShockStops [] e
          | Ok r => shock_found soln_file soln_range (match n with Model_Options.VInt z => Some z | _ => None end) r
          end
      | _, _, _ => ShockStops [] KeyError
      end
  end.
End Shock.

(** The tests of ds-shock as tasks: [names] gives the file of each. *)
Definition shock_task_at {Sol I : Type} (solve : vec -> list R -> res Sol) (num_angles : Sol -> nat) (plot : Sol -> res unit) (angles : list R) (dir_exists : bool)
  (r : run Sol I) (tests : list (R * vec)) (names : nat -> string) (i : nat) (fs : files (Sol := Sol) (I := I)) : files * res (option string) :=
  match nth_error tests i with
  | Some v => let '(fs, x) := shock_task solve num_angles plot angles dir_exists r (names i) v fs in (fs, Ok x)
  | None => (fs, Raise Lib_Py.IndexError)
  end.
(** The status of a command whose main function returns None or raises. *)
Definition exit_status (e : option exn) : Z := match e with None => 0 | Some _ => 1 end.
