(** Assembling a solution from its segments.

    Models src/disc_solver/solve/solution.py:369-420 ([taylor_solution]), 463-500 ([interp_cross_sonic]), 503-600
    ([main_solution]), 603-784 ([solution]) and 787-805.

    The integrator (scikits.odes, CVODE) is an argument: it is given everything passed to ode(...).solve(...) and
    answers how the run ended, the values it returned and the calls it made of the right-hand side.  Not modelled: the
    tolerances and step limits (passed unchanged to each segment), logging, the Jacobian viewer (never passed to the
    solver), interpolation (an argument). *)
From Coq Require Import String List Bool ZArith Reals.
From Verif Require Import Lib_Py Model_Index Model_Ode Model_Containers Model_Record.
Import ListNotations.
Open Scope R_scope. Open Scope list_scope.

Definition root_fn := R -> vec -> R.
(** A user callback, by name. *)
Definition callback := string.
(** What is passed to ode(...) and solve(...). *)
Record solve_call := mk_call {
  sc_system : ode_args; sc_rootfn : option root_fn; sc_nr_rootfns : option Z; sc_onroot : option callback;
  sc_tstop : option R; sc_ontstop : option callback; sc_angles : list R; sc_init : vec }.
Inductive run_end := Finished | FoundRoot | ReachedTstop | Failed.
Record cvode_run := mk_cvode {
  cr_end : run_end; cr_flag : Z; cr_t : list R; cr_y : list vec;
  cr_root_t : option (list R); cr_root_y : option (list vec);
  cr_tstop_t : list R; cr_tstop_y : list vec; cr_calls : list (R * vec) }.
Definition integrator := solve_call -> cvode_run.
(** StatusEnum.TOO_CLOSE. *)
Definition TOO_CLOSE : Z := (-27)%Z.

(** A computation with the integrations it started, in order. *)
Definition run (A : Type) := (list solve_call * res A)%type.
Definition ret {A} (r : res A) : run A := ([], r).
Definition bind {A B} (m : run A) (f : A -> run B) : run B :=
  match snd m with Ok a => let '(t, r) := f a in (fst m ++ t, r) | Raise e => (fst m, Raise e) end.
Notation "'run!' x := r 'in' f" := (bind r (fun x => f)) (at level 200, x pattern, right associativity).

(** Keyword arguments of [main_solution] that select how it is solved. *)
Record main_options := mk_opts {
  mo_onroot_func : option callback; mo_jump_before_sonic : option R; mo_tstop : option R; mo_ontstop_func : option callback;
  mo_store_internal : bool; mo_root_func : option root_fn; mo_root_func_args : option Z; mo_sonic_interp_size : option R }.
Definition given {A} (o : option A) : bool := match o with Some _ => true | None => false end.
(** velocity_stop_generator(target). *)
Definition velocity_root (target : R) : root_fn := fun _ y => velocity_stop target y.
(** solution.py:516-542. *)
Definition root_arguments (o : main_options) : res (option root_fn * option Z) :=
  if given (mo_sonic_interp_size o) && given (mo_root_func o) then Raise SolverError
  else if given (mo_sonic_interp_size o) && given (mo_jump_before_sonic o) then Raise SolverError
  else if given (mo_sonic_interp_size o) && negb (mo_store_internal o) then Raise SolverError
  else if given (mo_jump_before_sonic o) && given (mo_root_func o) then Raise SolverError
  else if given (mo_jump_before_sonic o) && given (mo_onroot_func o) then Raise SolverError
  else match mo_sonic_interp_size o, mo_jump_before_sonic o, mo_root_func o with
       | Some s, _, _ => Ok (Some (velocity_root (1 - s)), Some 1%Z)
       | None, Some j, _ => Ok (Some (velocity_root (1 - j)), Some 1%Z)
       | None, None, Some f => match mo_root_func_args o with
                               | Some n => Ok (Some f, Some n)
                               | None => Raise SolverError
                               end
       | None, None, None => Ok (None, None)
       end.
(** solution.py:595-598. *)
Definition finalised (i : option internal_data) : res (option internal_data) :=
  match i with None => Ok None | Some i => let! i := id_finalise i in Ok (Some i) end.

Section Solve.
(** [I]: the integrator.  [str]: str() of an angle. *)
Variables (I : integrator) (str : R -> string).

(** solution.py:503-600.  [system]: the arguments of ode_system. *)
Definition main_solution (system : ode_args) (angles : list R) (ode_initial_conditions : vec) (o : main_options)
  : run (cvode_run * option internal_data) :=
  run! roots := ret (root_arguments o) in
  if (List.length angles <? 2)%nat then ret (Raise SolverError) else
  let call := mk_call system (fst roots) (snd roots) (mo_onroot_func o)
                (rad_to_scaled (mo_tstop o) (oa_θ_scale system)) (mo_ontstop_func o) angles ode_initial_conditions in
  let soln := I call in
  ([call],
   match cr_end soln with
   | Failed => if (cr_flag soln =? TOO_CLOSE)%Z then Raise OtherError
               else let! i := finalised (after_calls str system (cr_calls soln)) in Ok (soln, i)
   | _ => let! i := finalised (after_calls str system (cr_calls soln)) in Ok (soln, i)
   end).

(** The TaylorSolution tuple with its internal data. *)
Definition taylor_result := (taylor_solution_t * option internal_data)%type.
(** solution.py:369-420. *)
Definition taylor_solution (angles : list R) (init_con : vec) (γ a_0 norm_kepler_sq taylor_stop_angle : R)
  (η_derivs store_internal : bool) (θ_scale : R) (use_E_r : bool) : run taylor_result :=
  let t := rad_to_scaled_num taylor_stop_angle θ_scale in
  let system := mk_ode_args γ a_0 norm_kepler_sq init_con θ_scale true η_derivs store_internal use_E_r None false in
  let call := mk_call system None None None (Some t) None angles init_con in
  let soln := I call in
  ([call],
   match cr_end soln with
   | Failed | Finished => Raise SolverError
   | FoundRoot => Raise OtherError
   | ReachedTstop =>
       match cr_tstop_y soln, cr_tstop_t soln with
       | y :: _, ts :: _ =>
           Ok (mk_taylor_solution (map (fun x => scaled_to_rad_num x θ_scale) (cr_t soln)) (cr_y soln)
                 (taylor_new_angles angles t) y ts,
               after_calls str system (cr_calls soln))
       | _, _ => Raise IndexError
       end
   end).

Record soln_options := mk_soln_options {
  so_use_taylor_jump : bool; so_taylor_stop_angle : R (* radians *); so_jump_before_sonic : option R;
  so_after_sonic : option R; so_interp_slice : nat -> list nat (* the indices of a sequence of that length *);
  so_sonic_interp_size : option R; so_η_derivs : bool; so_use_E_r : bool }.
Record conditions := mk_conditions { ic_angles : list R; ic_init_con : vec; ic_γ : R; ic_a_0 : R; ic_norm_kepler_sq : R }.
Record call_options := mk_call_options {
  co_root_func : option root_fn; co_root_func_args : option Z; co_onroot_func : option callback; co_tstop : option R;
  co_ontstop_func : option callback; co_store_internal : bool; co_with_taylor : bool;
  co_modified : option (list R * vec) (* angles and init_con of modified_initial_conditions *); co_θ_scale : R }.
Record soln_t := mk_soln {
  s_flag : Z; s_internal : option internal_data; s_angles : list R; s_solution : list vec;
  s_t_roots : option (list R); s_y_roots : option (list vec) }.

(** a + b for internal data that may be missing: solution.py:683-685, 716-717, 740-741, 775-776. *)
Definition add_internal (store : bool) (a b : option internal_data) : res (option internal_data) :=
  match store, a, b with
  | true, Some a, Some b => let! i := id_add a b in Ok (Some i)
  | true, None, Some b => Raise TypeError
  | _, _, _ => Ok a
  end.
Definition take_indices {A} (sl : nat -> list nat) (l : list A) : list A :=
  flat_map (fun i => match nth_error l i with Some a => [a] | None => [] end) (sl (List.length l)).
(** values.t[-1], values.y[-1]. *)
Definition last_of {A} (l : list A) : res A := match rev l with a :: _ => Ok a | [] => Raise IndexError end.

(** [interpolate]: deduplicate_and_interpolate, None for its ValueError. *)
Variable interpolate : list R -> list R -> option (R -> R).

(** solution.py:463-500. *)
Definition interp_cross_sonic (base : cvode_run) (angles : list R) (system : ode_args) (after_sonic : R)
  (base_internal : option internal_data) (interp_slice : nat -> list nat) (store_internal : bool)
  : run (option (cvode_run * option internal_data * list R * vec)) :=
  match base_internal with
  | None => ret (Raise AttributeError)
  | Some i =>
      match interpolate (take_indices interp_slice (id_angles i)) (map (fun r => nth iv_θ r 0) (take_indices interp_slice (id_derivs i))) with
      | None => ret (Ok None)
      | Some f =>
          run! starting_angle := ret (last_of (cr_t base)) in
          run! y := ret (last_of (cr_y base)) in
          let system := mk_ode_args (oa_γ system) (oa_a_0 system) (oa_norm_kepler_sq system) (oa_init_con system) (oa_θ_scale system)
                          (oa_with_taylor system) (oa_η_derivs system) (oa_store_internal system) (oa_use_E_r system) (Some f)
                          (oa_derivs_post_solution system) in
          run! soln_i := main_solution system (angles_ge starting_angle angles) y
                           (mk_opts None None None None store_internal (Some (velocity_root (1 + after_sonic))) (Some 1%Z) None) in
          let '(soln, int_internal) := soln_i in
          run! t := ret (last_of (cr_t soln)) in
          run! y' := ret (last_of (cr_y soln)) in
          ret (Ok (Some (soln, int_internal, t :: angles_gt t angles, y')))
      end
  end.

(** solution.py:603-784. *)
Definition to_rad (θ_scale : R) (l : list R) : list R := map (fun x => scaled_to_rad_num x θ_scale) l.
Definition solution (inp : soln_options) (ic : conditions) (co : call_options) : run soln_t :=
  let scale := co_θ_scale co in
  let store := co_store_internal co in
  run! start :=
    (if co_with_taylor co then
       run! ts := (if so_use_taylor_jump inp
                   then ret (Ok (taylor_jump (ic_angles ic) (ic_init_con ic) (ic_γ ic) (ic_a_0 ic) (so_taylor_stop_angle inp)
                                   (so_η_derivs inp) scale (so_use_E_r inp), None))
                   else taylor_solution (ic_angles ic) (ic_init_con ic) (ic_γ ic) (ic_a_0 ic) (ic_norm_kepler_sq ic)
                          (so_taylor_stop_angle inp) (so_η_derivs inp) store scale (so_use_E_r inp)) in
       ret (Ok (ts_new_angles (fst ts), ts_new_initial_conditions (fst ts), Some ts))
     else match co_modified co with
          | None => ret (Ok (ic_angles ic, ic_init_con ic, None))
          | Some (a, y) => ret (Ok (a, y, None))
          end) in
  let '(post_taylor_angles, post_taylor_init, taylor) := start in
  let system := mk_ode_args (ic_γ ic) (ic_a_0 ic) (ic_norm_kepler_sq ic) (ic_init_con ic) scale false (so_η_derivs inp) store
                  (so_use_E_r inp) None false in
  run! soln_i := main_solution system post_taylor_angles post_taylor_init
                   (mk_opts (co_onroot_func co) (so_jump_before_sonic inp) (co_tstop co) (co_ontstop_func co) store (co_root_func co)
                      (co_root_func_args co) (so_sonic_interp_size inp)) in
  let '(soln, main_internal) := soln_i in
  run! internal := ret (match taylor with
                        | Some (_, Some ti) =>
                            if store then match main_internal with
                                          | Some m => let! i := id_add ti m in Ok (Some i)
                                          | None => Raise TypeError
                                          end
                            else Ok main_internal
                        | _ => Ok main_internal
                        end) in
  let angles := match taylor with Some (ts, _) => ts_angles ts | None => [] end ++ to_rad scale (cr_t soln) in
  let states := match taylor with Some (ts, _) => ts_params ts | None => [] end ++ cr_y soln in
  let last_options := mk_opts (co_onroot_func co) None (co_tstop co) (co_ontstop_func co) store (co_root_func co) (co_root_func_args co) None in
  run! joined :=
    (match so_sonic_interp_size inp with
     | Some size =>
         run! crossed := interp_cross_sonic soln post_taylor_angles system (match so_after_sonic inp with None => size | Some a => a end)
                           internal (so_interp_slice inp) store in
         match crossed with
         | None => ret (Ok (internal, angles, states))
         | Some (int_soln, int_internal, int_angles, int_init_con) =>
             run! internal := ret (add_internal store internal int_internal) in
             let angles := angles ++ to_rad scale (cr_t int_soln) in
             let states := states ++ cr_y int_soln in
             run! post := main_solution system int_angles int_init_con last_options in
             run! internal := ret (add_internal store internal (snd post)) in
             ret (Ok (internal, angles ++ to_rad scale (cr_t (fst post)), states ++ cr_y (fst post)))
         end
     | None =>
         match so_jump_before_sonic inp with
         | None => ret (Ok (internal, angles, states))
         | Some jump =>
             run! t := ret (last_of (cr_t soln)) in
             run! y := ret (last_of (cr_y soln)) in
             match jump_across_sonic t y post_taylor_angles (ic_init_con ic) (ic_γ ic) (ic_a_0 ic) (ic_norm_kepler_sq ic)
                     (so_η_derivs inp) scale (so_use_E_r inp) jump (so_after_sonic inp) with
             | None => ret (Raise SolverError)   (* +inf or NaN: no angles are greater, and one is too few; -inf is not modelled *)
             | Some (post_jump_angles, post_jump_init) =>
                 run! post := main_solution system post_jump_angles post_jump_init last_options in
                 run! internal := ret (add_internal store internal (snd post)) in
                 ret (Ok (internal, angles ++ to_rad scale (cr_t (fst post)), states ++ cr_y (fst post)))
             end
         end
     end) in
  let '(internal, angles, states) := joined in
  ret (Ok (mk_soln (cr_flag soln) internal angles states
             (match cr_root_t soln with Some t => Some (to_rad scale t) | None => None end) (cr_root_y soln))).
End Solve.
