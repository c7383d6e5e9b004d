(** The sonic root method: src/disc_solver/solve/sonic_root.py.

    The only object that is shared is the midplane conditions' array init_con: InitialConditions( **vars(...) )
    (_containers.py:665-698, sonic_root.py:191) keeps a reference to the same array, so that its contents are threaded through as
    state.  A stored solution is kept with the contents its conditions have when it is written to the file.  The integration
    (solution(...)) is an argument, given the contents of the system's conditions, the start values and the angles; scipy.optimize.root
    is any finite sequence of evaluations.  StatusEnum (scikits.odes) is taken to have no member called SUCESS.  Internal data is the list of its
    records (Model_Containers.v).  Numbers are reals or NaN.  Not modelled: logging, roots, infinities. *)
From Coq Require Import String List Bool Reals ZArith.
From Verif Require Import Lib_Py Model_Index Model_Array.
Import ListNotations.
Open Scope list_scope. Open Scope R_scope.

Definition nvec := nat -> num.
Definition nupd (i : nat) (x : num) (v : nvec) : nvec := fun j => if Nat.eqb j i then x else v j.
Definition nadd (x y : num) : num := match x, y with Some a, Some b => Some (a + b) | _, _ => None end.
Definition nmul (x y : num) : num := match x, y with Some a, Some b => Some (a * b) | _, _ => None end.
(** Division; by zero it is taken to be NaN (infinities are not modelled). *)
Definition ndiv (x y : num) : num := match x, y with Some a, Some b => if Req_EM_T b 0 then None else Some (a / b) | _, _ => None end.
(** log; of zero it is taken to be NaN. *)
Definition nlog (x : num) : num := match x with Some a => if Rlt_dec 0 a then Some (ln a) else None | None => None end.
Definition nexp (x : num) : num := option_map exp x.

(** sonic_root.py:41-52. *)
Definition tθ_sonic : nat := 0.
Definition tv_φ : nat := 1.
Definition tv_r : nat := 2.
Definition tB_θ : nat := 3.
Definition tB_r : nat := 4.
Definition tB_φ : nat := 5.
Definition tlog_ρ : nat := 6.
Definition tB_φ_prime : nat := 7.
(** The variables that are also members of ODEIndex. *)
Definition SHARED : list (nat * nat) := [(tv_φ, iv_φ); (tv_r, iv_r); (tB_θ, iB_θ); (tB_r, iB_r); (tB_φ, iB_φ); (tB_φ_prime, iB_φ_prime)].
(** sonic_root.py:31-38. *)
Definition COMPARING_INDICES : list nat := [iv_r; iv_θ; iv_φ; iB_r; iB_θ; iB_φ].

Section SonicRoot.
Context {Call : Type}.
Record soln := mk_soln { s_angles : list num; s_rows : list nvec; s_flag : Z; s_internal : option (list Call) }.
Definition state := (nvec * list (soln * nvec))%type.   (* contents of the conditions; the stored solutions with those contents at the time *)
Variable solve : nvec -> nvec -> list num -> res soln.

(** linspace(a, b, n); for n = 1 numpy multiplies the only index, 0, by b - a. *)
Definition nlinspace (a b : num) (n : nat) : list num :=
  map (fun k => nadd a (nmul (Some (INR k)) (if (n =? 1)%nat then nsub b a else ndiv (nsub b a) (Some (INR (n - 1)))))) (seq 0 n).
(** sonic_root.py:184-206: the contents of the shared array, and the angles. *)
Definition total_vars_to_mod_cons (init_con : nvec) (n : nat) (guess : nvec) (sonic_stop : num) : nvec * res (list num) :=
  let angles := nlinspace (guess tθ_sonic) sonic_stop n in
  let init_con := nupd iv_θ (Some 1) init_con in
  let init_con := nupd iv_φ (guess tv_φ) init_con in
  let init_con := nupd iv_r (guess tv_r) init_con in
  let init_con := nupd iB_θ (guess tB_θ) init_con in
  let init_con := nupd iB_r (guess tB_r) init_con in
  let init_con := nupd iB_φ (guess tB_φ) init_con in
  let init_con := nupd iρ (nexp (guess tlog_ρ)) init_con in
  let init_con := nupd iB_φ_prime (guess tB_φ_prime) init_con in
  (init_con, if existsb (fun i => is_nan (init_con i)) (seq 0 ODE_LEN) then Raise SolverError else Ok angles).

(** sonic_root.py:209-272 after the comparisons, which are of an object with itself; the solution that is stored. *)
Definition write_solution (initial sonic : soln) : res soln :=
  if negb (s_flag sonic <? 0)%Z then Raise AttributeError      (* StatusFlag.SUCESS *)
  else
    let joined_internal :=
      match s_internal initial, s_internal sonic with
      | None, None => None
      | None, Some b => Some (rev b)
      | Some a, None => Some a
      | Some a, Some b => Some (a ++ rev b)
      end in
    Ok (mk_soln (s_angles initial ++ rev (s_angles sonic)) (s_rows initial ++ rev (s_rows sonic)) (s_flag sonic) joined_internal).

Definition last_num (l : list num) : res num := match l with [] => Raise Lib_Py.IndexError | _ => Ok (last l None) end.
Definition last_row (l : list nvec) : res nvec := match l with [] => Raise Lib_Py.IndexError | _ => Ok (last l (fun _ => None)) end.
(** sonic_root.py:123-144. *)
Definition get_root_results (sonic midplane : soln) : res (list num) :=
  match s_rows sonic with
  | [] => Raise SolverError
  | _ =>
      let! s := last_row (s_rows sonic) in
      let! m := last_row (s_rows midplane) in
      let! a := last_num (s_angles sonic) in
      let! b := last_num (s_angles midplane) in
      Ok (map (fun i => nsub (s i) (m i)) COMPARING_INDICES ++ [nlog (ndiv (s iρ) (m iρ)); nsub a b])
  end.
(** sonic_root.py:89-120, one evaluation; [n] = len(initial_conditions.angles). *)
Definition root_func (n : nat) (initial : soln) (sonic_stop : num) (st : state) (guess : nvec) : state * res (list num) :=
  let '(con, stored) := st in
  match total_vars_to_mod_cons con n guess sonic_stop with
  | (con, Raise e) => ((con, stored), Raise e)
  | (con, Ok angles) =>
      match solve con con angles with
      | Raise e => ((con, stored), Raise e)
      | Ok sonic =>
          match write_solution initial sonic with
          | Raise e => ((con, stored), Raise e)
          | Ok joined => ((con, stored ++ [(joined, con)]), get_root_results sonic initial)
          end
      end
  end.
(** sonic_root.py:275-288; ERR_FLOAT is some number. *)
Variable ERR_FLOAT : R.
Definition wrapped (n : nat) (initial : soln) (sonic_stop : num) (st : state) (guess : nvec) : state * res (list num) :=
  match root_func n initial sonic_stop st guess with
  | (st, Raise SolverError) => (st, Ok (repeat (Some ERR_FLOAT) 8))
  | r => r
  end.
Fixpoint evaluations (n : nat) (initial : soln) (sonic_stop : num) (st : state) (guesses : list nvec) : state * res unit :=
  match guesses with
  | [] => (st, Ok tt)
  | g :: t => match wrapped n initial sonic_stop st g with
              | (st, Raise e) => (st, Raise e)
              | (st, Ok _) => evaluations n initial sonic_stop st t
              end
  end.

(** The last row of diff(solution, axis=0). *)
Definition last_diff (rows : list nvec) : res nvec :=
  match rev rows with
  | a :: b :: _ => Ok (fun i => nsub (a i) (b i))
  | _ => Raise Lib_Py.IndexError
  end.
(** sonic_root.py:162-181, for a variable of ODEIndex, for log_ρ and for θ_sonic (float_type(0.9)). *)
Definition sonic_value (rows : list nvec) (i : nat) : res num :=
  let! l := last_row rows in
  let! d := last_diff rows in
  Ok (nadd (l i) (nmul (ndiv (d i) (d iv_θ)) (nsub (Some 1) (l iv_θ)))).
Definition sonic_log_ρ (rows : list nvec) : res num :=
  let! l := last_row rows in
  let! d := last_diff rows in
  match rev rows with
  | a :: b :: _ => Ok (nadd (nlog (l iρ)) (nmul (ndiv (nlog (ndiv (a iρ) (b iρ))) (d iv_θ)) (nsub (Some 1) (l iv_θ))))
  | _ => Raise Lib_Py.IndexError
  end.
(** sonic_root.py:147-159: no field of SolutionInput has the name of a variable of TotalVars, so that hasattr is False for each. *)
Definition guess_root_vals (initial : soln) : res nvec :=
  let! a := last_num (s_angles initial) in
  let rows := s_rows initial in
  let! v_φ := sonic_value rows iv_φ in
  let! v_r := sonic_value rows iv_r in
  let! B_θ := sonic_value rows iB_θ in
  let! B_r := sonic_value rows iB_r in
  let! B_φ := sonic_value rows iB_φ in
  let! log_ρ := sonic_log_ρ rows in
  let! B_φ_prime := sonic_value rows iB_φ_prime in
  Ok (fun t => nth t [ndiv a (Some (9 / 10)); v_φ; v_r; B_θ; B_r; B_φ; log_ρ; B_φ_prime] None).

(** sonic_root.py:55-86.  [first]: the midplane solution; [guesses] start with the guess made here; [success]: what the root solver reports. *)
Definition solver (con : nvec) (n : nat) (first : res soln) (later_guesses : list nvec) (success : bool) : state * res (soln * bool) :=
  match first with
  | Raise e => ((con, []), Raise e)
  | Ok initial =>
      let st := (con, [(initial, con)]) in
      match last_num (s_angles initial), guess_root_vals initial with
      | Ok sonic_stop, Ok g =>
          match evaluations n initial sonic_stop st (g :: later_guesses) with
          | (st, Raise e) => (st, Raise e)
          | (st, Ok _) => (st, Ok (fst (last (snd st) (initial, con)), success))
          end
      | Raise e, _ | _, Raise e => (st, Raise e)
      end
  end.
End SonicRoot.
Arguments soln : clear implicits. Arguments state : clear implicits.
