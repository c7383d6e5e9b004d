(** Selecting and ordering solutions: src/disc_solver/analyse/diverge_plot.py:45-58, 161-165 and analyse/info.py:185-194.
    The log probability of a solution (solve/mcmc.py:153-169) is an argument, a real number. *)
From Coq Require Import String Ascii List Bool ZArith Reals.
From Verif Require Import Lib_Py Model_Format Model_Run Model_Array.
Import ListNotations.
Open Scope string_scope. Open Scope list_scope.

(** '-' in entry. *)
Fixpoint has_char (c : ascii) (s : string) : bool :=
  match s with EmptyString => false | String a t => Ascii.eqb a c || has_char c t end.
(** range(a, b). *)
Definition zrange (a b : Z) : list Z := map (fun k => (a + Z.of_nat k)%Z) (seq 0 (Z.to_nat (b - a))).
(** diverge_plot.py:50-58: one entry.  entry.split('-', 2) unpacked into two names: any number of dashes but one is a ValueError. *)
Definition parse_entry (entry : string) : res (list string) :=
  let entry := strip entry in
  if has_char "-" entry then
    match split_on "-" entry with
    | [start; stop] =>
        match py_int start, py_int stop with
        | Some a, Some b => Ok (map str_of_Z (zrange a b) ++ [stop])
        | _, _ => Raise Lib_Py.ValueError
        end
    | _ => Raise Lib_Py.ValueError
    end
  else Ok [entry].
Fixpoint parse_entries (l : list string) : res (list string) :=
  match l with [] => Ok [] | e :: t => let! a := parse_entry e in let! b := parse_entries t in Ok (a ++ b) end.
(** diverge_plot.py:45-58, all the names yielded. *)
Definition parse_solution_filter (filter_string : string) : res (list string) := parse_entries (split_on "," (strip filter_string)).
(** diverge_plot.py:161-165. *)
Fixpoint select {Sol} (filter : list string) (d : dict Sol) : res (list (string * Sol)) :=
  match filter with
  | [] => Ok []
  | k :: t => let! s := dgetitem k d in let! l := select t d in Ok ((k, s) :: l)
  end.
(** sorted(..., key=...): a stable sort. *)
Fixpoint insert_by (p : string * R) (l : list (string * R)) : list (string * R) :=
  match l with
  | [] => [p]
  | q :: t => if Rltb (snd p) (snd q) then p :: q :: t else q :: insert_by p t
  end.
(** info.py:185-194. *)
Definition sort_solutions {Sol} (logprob : Sol -> R) (d : dict Sol) : list (string * R) :=
  fold_left (fun acc p => insert_by p acc) (map (fun p => (fst p, logprob (snd p))) d) [].
