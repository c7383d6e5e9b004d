(** Containers of a run.

    Models src/disc_solver/file_format/_containers.py lines 509-650 (class Solutions and class Run) and
    src/disc_solver/utils.py lines 165-177 ([get_solutions]).

    h5preserve's wrap_on_demand/OnDemandWrapper (lines 524-541) is modelled as transparent storage:
    reading a key gives the value stored under it.  DelayedContainer.write_container (lines 628, 639) writes to the
    file; only the in-memory effect is modelled. *)
From Coq Require Import String List Bool ZArith.
From Verif Require Import Lib_Py.
Import ListNotations.
Open Scope string_scope. Open Scope list_scope.

Section Run.
Context {Sol I : Type}.   (* solutions; the remaining, never changed fields of a run *)

(** _containers.py:509-560: the container is a dict. *)
Definition solutions := dict Sol.
(** _containers.py:570-577. *)
Definition get_next_index (d : solutions) : res string :=
  if negb (dmem (str_of_nat (length d)) d) then Ok (str_of_nat (length d)) else Raise RuntimeError.
(** _containers.py:562-568: the returned index and the new container. *)
Definition add_solution (soln : Sol) (d : solutions) : res (string * solutions) :=
  let! index := get_next_index d in Ok (index, dset index soln d).

(** sorted(keys, key=int), a stable sort; ValueError if a key is not an integer. *)
Fixpoint int_keys (ks : list string) : res (list (Z * string)) :=
  match ks with
  | [] => Ok []
  | k :: t => match py_int k with
              | None => Raise ValueError
              | Some z => let! l := int_keys t in Ok ((z, k) :: l)
              end
  end.
Fixpoint insert_key (p : Z * string) (l : list (Z * string)) : list (Z * string) :=
  match l with
  | [] => [p]
  | q :: t => if (fst p <? fst q)%Z then p :: q :: t else q :: insert_key p t
  end.
Definition sorted_by_int (ks : list string) : res (list string) :=
  let! l := int_keys ks in Ok (map snd (fold_left (fun acc p => insert_key p acc) l [])).
(** _containers.py:579-583. *)
Definition get_last_solution (d : solutions) : res Sol :=
  let! ks := sorted_by_int (dkeys d) in
  match ks with [] => Raise IndexError | _ => dgetitem (last ks "") d end.

(** The attribute _final_solution: a DelayedContainer that was never written, None, or a solution. *)
Inductive final_state := Unset | FinalNone | Final (s : Sol).

(** _containers.py:600-616.  [r_info]: config_input, config_filename, disc_solver_version, float_type,
    sonic_method, time, use_E_r. *)
Record run := mk_run {
  r_info : I; r_final : final_state; r_solutions : solutions;
  r_is_post_shock_only : bool; r_based_on_filename : option string; r_based_on_name : option string }.
Definition new_run (info : I) : run := mk_run info Unset [] false None None.
Definition with_final (r : run) (f : final_state) : run :=
  mk_run (r_info r) f (r_solutions r) (r_is_post_shock_only r) (r_based_on_filename r) (r_based_on_name r).
Definition with_solutions (r : run) (d : solutions) : run :=
  mk_run (r_info r) (r_final r) d (r_is_post_shock_only r) (r_based_on_filename r) (r_based_on_name r).

(** _containers.py:625-631, the setter; the argument is a solution or None. *)
Definition set_final (r : run) (soln : option Sol) : res run :=
  match r_final r with
  | Unset => Ok (with_final r (match soln with Some s => Final s | None => FinalNone end))
  | _ => Raise RuntimeError
  end.
(** _containers.py:633-640. *)
Definition finalise (r : run) : res run :=
  match r_final r with
  | Unset => let! soln := get_last_solution (r_solutions r) in Ok (with_final r (Final soln))
  | _ => Ok r
  end.
(** _containers.py:642-650. *)
Definition create_shock_run (r : run) (filename solution_name : string) : run :=
  mk_run (r_info r) Unset [] true (Some filename) (Some solution_name).

(** utils.py:165-177.  The value returned is what the attribute holds, including the placeholder. *)
Fixpoint max_list (l : list Z) (m : Z) : Z := match l with [] => m | z :: t => max_list t (Z.max m z) end.
Definition str_of_Z (z : Z) : string :=
  match z with
  | Zneg p => ("-" ++ str_of_nat (Pos.to_nat p))%string
  | _ => str_of_nat (Z.to_nat z)
  end.
Definition get_solutions (r : run) (soln_range : option string) : res final_state :=
  let lookup (name : string) := let! s := dgetitem name (r_solutions r) in Ok (Final s) in
  match soln_range with
  | None => lookup "0"
  | Some rng =>
      if String.eqb rng "latest" then
        match r_final r with
        | FinalNone =>
            let! l := int_keys (dkeys (r_solutions r)) in
            match map fst l with
            | [] => Raise ValueError      (* max of an empty sequence *)
            | z :: t => lookup (str_of_Z (max_list t z))
            end
        | f => Ok f
        end
      else if String.eqb rng "final" then Ok (r_final r)
      else lookup rng
  end.
End Run.
Arguments solutions : clear implicits. Arguments final_state : clear implicits. Arguments run : clear implicits.
