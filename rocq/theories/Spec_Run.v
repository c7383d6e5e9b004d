(** Histories of operations on a run, as a caller sees them: a call that raises leaves the run as it was. *)
From Coq Require Import String List.
From Verif Require Import Lib_Py Model_Run.
Import ListNotations.
Section Hist.
Context {Sol I : Type}.
Inductive run_op := OpAdd (s : Sol) | OpDel (k : string) | OpSetItem (k : string) (s : Sol) | OpSetFinal (x : option Sol) | OpFinalise.
Definition do_op (r : run Sol I) (o : run_op) : run Sol I :=
  match o with
  | OpAdd s => match add_solution s (r_solutions r) with Ok (_, d) => with_solutions r d | Raise _ => r end
  | OpDel k => match ddel k (r_solutions r) with Ok d => with_solutions r d | Raise _ => r end
  | OpSetItem k s => with_solutions r (dset k s (r_solutions r))
  | OpSetFinal x => match set_final r x with Ok r' => r' | Raise _ => r end
  | OpFinalise => match finalise r with Ok r' => r' | Raise _ => r end
  end.
Definition history (ops : list run_op) (r : run Sol I) : run Sol I := fold_left do_op ops r.
(** A history of additions, all of which succeed. *)
Fixpoint add_all (ss : list Sol) (d : solutions Sol) : res (list string * solutions Sol) :=
  match ss with
  | [] => Ok ([], d)
  | s :: t => let! p := add_solution s d in let! q := add_all t (snd p) in Ok (fst p :: fst q, snd q)
  end.
End Hist.
Arguments run_op : clear implicits.
