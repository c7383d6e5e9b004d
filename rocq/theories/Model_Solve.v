(** The commands that solve and write a file: src/disc_solver/solve/__init__.py:42-99 (ds-soln), solve/resolve.py:27-94 (ds-resoln)
    and solve/hdf5runner.py:26-114 (ds-hdf5runner).

    A file system maps names to the run stored in the file.  The run is attached to its open file, so that the file holds what the
    run holds at every moment, also if the method raises (h5preserve's write-through containers).  Reading the configuration and
    building the inputs, which happens before the file is opened, is the argument [prepared]: the fresh run and the solution input,
    or what is raised; the name of the output file is an argument.  Not modelled: logging, printing, the memory usage report. *)
From Coq Require Import String List Bool ZArith.
From Verif Require Import Lib_Py Model_Run.
Import ListNotations.
Open Scope string_scope. Open Scope list_scope.

Section Solve.
Context {Sol I Inp : Type}.
Definition method := Inp -> run Sol I -> run Sol I * res bool.
(** solve/__init__.py:31-39. *)
Definition method_map := dict method.
Definition METHOD_NAMES : list string := ["step"; "single"; "mcmc"; "sonic_root"; "hydrostatic"; "mod_hydro"; "fast_crosser"].
Definition files := dict (run Sol I).

(** h5open(name, mode='x'). *)
Definition create (name : string) (r : run Sol I) (fs : files) : res files :=
  if dmem name fs then Raise FileExistsError else Ok (dset name r fs).
(** The call of the method and run.finalise() in the open file (solve/__init__.py:70-74). *)
Definition solve_in (m : method) (name : string) (inp : Inp) (r : run Sol I) (fs : files) : files * res bool :=
  let '(r1, out) := m inp r in
  let fs := dset name r1 fs in
  match out with
  | Raise e => (fs, Raise e)
  | Ok succeeded => match finalise r1 with
                    | Raise e => (fs, Raise e)
                    | Ok r2 => (dset name r2 fs, Ok succeeded)
                    end
  end.
(** solve/__init__.py:42-77; resolve.py:27-70 has the same shape. *)
Definition solve (methods : method_map) (prepared : res (run Sol I * Inp)) (sonic_method name : string) (fs : files) : files * res bool :=
  match prepared with
  | Raise e => (fs, Raise e)
  | Ok (r, inp) =>
      match create name r fs with
      | Raise e => (fs, Raise e)
      | Ok fs => match dget sonic_method methods with
                 | None => (fs, Raise SolverError)
                 | Some m => solve_in m name inp r fs
                 end
      end
  end.
(** The exit status of the command (solve/__init__.py:80-99, solve/utils.py:91-96): 2 if the parser rejects the method, 1 for an
    exception that is not caught, else int(not succeeded). *)
Definition main (methods : method_map) (prepared : res (run Sol I * Inp)) (sonic_method name : string) (fs : files) : files * Z :=
  if negb (existsb (String.eqb sonic_method) METHOD_NAMES) then (fs, 2%Z)
  else let '(fs, out) := solve methods prepared sonic_method name fs in
       (fs, match out with Ok true => 0%Z | _ => 1%Z end).

(** hdf5runner.py:42-94, one input: the method is looked up first; a solver error is caught. *)
Definition solver_error (e : exn) : bool := match e with SolverError | StepperError | StepperStop => true | _ => false end.
Definition hdf5_one (methods : method_map) (sonic_method : string) (prepared : res (run Sol I * Inp)) (name : string) (fs : files)
  : files * res (option bool) :=
  match dget sonic_method methods with
  | None => (fs, Raise SolverError)
  | Some m =>
      match prepared with
      | Raise e => (fs, Raise e)
      | Ok (r, inp) =>
          let '(fs, out) := match create name r fs with
                            | Raise e => (fs, Raise e)
                            | Ok fs => solve_in m name inp r fs
                            end in
          match out with
          | Ok b => (fs, Ok (Some b))
          | Raise e => (fs, if solver_error e then Ok None else Raise e)
          end
      end
  end.
(** hdf5runner.py:97-114 with one worker: inputs with the names of their files.  The results, in order; an exception ends it. *)
Fixpoint hdf5runner (methods : method_map) (sonic_method : string) (inputs : list (res (run Sol I * Inp) * string)) (fs : files)
  : files * list (option bool) * option exn :=
  match inputs with
  | [] => (fs, [], None)
  | (prepared, name) :: t =>
      match hdf5_one methods sonic_method prepared name fs with
      | (fs, Raise e) => (fs, [], Some e)
      | (fs, Ok b) => let '(fs, bs, e) := hdf5runner methods sonic_method t fs in (fs, b :: bs, e)
      end
  end.
End Solve.
