(** The stepping solver.

    Models src/disc_solver/solve/stepper.py (all functions except [human_view_splitter], see Model_Human, and
    [is_solution_best], see Model_Array).  Log calls are dropped.  Callbacks act on a world [W] that is threaded through. *)
From Coq Require Import String List Bool ZArith Reals.
From Verif Require Import Lib_Py Model_Run Model_Array.
Import ListNotations.

(** ** binary_searcher *)
Section Searcher.
Context {W Inp Out Val : Type}.
Variable func : W -> Inp -> W * res (Out * bool).
Variable pass_func : W -> Out -> nat -> W * res Val.
Variable fail_func : W -> Out -> nat -> W * res Inp.
Variable final_fail_func : W -> nat -> W * res Val.

(** stepper.py:84-91, the except clauses; the handler of StepperStop is outside the try, so what it raises propagates.
    [None] is Python's None. *)
Definition handle (w : W) (attempt : nat) (e : exn) : W * res (option Val) :=
  match e with
  | StepperError => (w, Ok None)
  | StepperStop => let '(w', r) := final_fail_func w attempt in (w', let! v := r in Ok (Some v))
  | _ => (w, Raise e)
  end.
(** stepper.py:77-83, the for loop: [todo] attempts left. *)
Fixpoint search_loop (todo attempt : nat) (w : W) (inp : Inp) : W * res (option Val) :=
  match todo with
  | O => (w, Ok None)
  | S todo' =>
      match func w inp with
      | (w1, Raise e) => handle w1 attempt e
      | (w1, Ok (out, true)) =>
          match pass_func w1 out attempt with
          | (w2, Raise e) => handle w2 attempt e
          | (w2, Ok v) => (w2, Ok (Some v))
          end
      | (w1, Ok (out, false)) =>
          match fail_func w1 out attempt with
          | (w2, Raise e) => handle w2 attempt e
          | (w2, Ok inp') => search_loop todo' (S attempt) w2 inp'
          end
      end
  end.
(** stepper.py:68-91. *)
Definition binary_searcher (w : W) (initial_input : Inp) (num_attempts : nat) : W * res (option Val) :=
  search_loop num_attempts 0 w initial_input.
End Searcher.

(** stepper.py:25-31.  [OtherType]: any other value a splitter might return. *)
Inductive SplitterStatus := STOP | SIGN_FLIP | DIVERGE | OtherType (n : nat).
Definition status_eq_dec : forall a b : SplitterStatus, {a = b} + {a <> b}.
Proof. decide equality. apply Nat.eq_dec. Defined.

(** Arithmetic on γ; the instance on the reals is exact, any rounding can be put in [add], [sub]. *)
Record arith := mk_arith {
  F : Type; add : F -> F -> F; sub : F -> F -> F; feqb : F -> F -> bool; zero : F; half : F -> F; tenth : F -> F }.
Definition R_arith : arith := mk_arith R Rplus Rminus Reqb 0%R (fun x => (x / 2)%R) (fun x => (/ 10 * x)%R).

Section Stepper.
Variable ar : arith.
(** The variables captured by [stepper] (stepper.py:101-104). *)
Record stepper_state := mk_st {
  search_steps : nat; binary_started : bool; prev_soln_type : option SplitterStatus; step_size : F ar }.
Definition initial_stepper (initial_step_size : F ar) : stepper_state := mk_st 0 false None initial_step_size.
(** stepper.py:106-133 without the calls: the new state and either StepperError or the step size handed to step_func. *)
Definition stepper_advance (max_search_steps : nat) (st : stepper_state) (soln_type : SplitterStatus)
  : stepper_state * res (F ar) :=
  if negb (binary_started st) then
    let search_steps := S (search_steps st) in
    if (max_search_steps <? search_steps)%nat then
      (mk_st search_steps (binary_started st) (prev_soln_type st) (step_size st), Raise StepperError)
    else
      match prev_soln_type st with
      | Some p =>
          if status_eq_dec p soln_type then
            (mk_st search_steps false (Some p) (step_size st), Ok (step_size st))
          else
            (mk_st search_steps true (Some p) (half ar (step_size st)), Ok (half ar (step_size st)))
      | None => (mk_st search_steps false (Some soln_type) (step_size st), Ok (step_size st))
      end
  else
    (mk_st (search_steps st) true (prev_soln_type st) (half ar (step_size st)), Ok (half ar (step_size st))).

(** ** step_input: the part of SolutionInput that is not γ is left abstract. *)
Context {X : Type}.
Record sinput := mk_sinput { s_γ : F ar; s_rest : X }.
(** stepper.py:299-301, the while loop: [bigger] is bigger_step, [γ] the current value; fuel bounds the number of iterations. *)
Fixpoint bump (fuel : nat) (prev step bigger γ : F ar) : option (F ar) :=
  if feqb ar prev γ then
    match fuel with
    | O => None
    | S fuel' => let bigger := add ar bigger step in bump fuel' prev step bigger (add ar γ bigger)
    end
  else Some γ.
(** stepper.py:274-303.  The first component is the state in which the call leaves soln.solution_input
    (inp_dict is that object's own __dict__). *)
Definition step_func (fuel : nat) (inp : sinput) (soln_type : SplitterStatus) (step : F ar) : sinput * res sinput :=
  let prev_γ := s_γ inp in
  match soln_type with
  | DIVERGE =>
      let γ := sub ar prev_γ step in
      let inp' := mk_sinput γ (s_rest inp) in
      if feqb ar prev_γ γ then (inp', Raise StepperStop) else (inp', Ok inp')
  | SIGN_FLIP =>
      let γ := add ar prev_γ step in
      if feqb ar prev_γ γ then
        match bump fuel prev_γ step (zero ar) γ with
        | Some γ' => let inp' := mk_sinput γ' (s_rest inp) in (inp', Ok inp')
        | None => (mk_sinput γ (s_rest inp), Raise NonTermination)
        end
      else let inp' := mk_sinput γ (s_rest inp) in (inp', Ok inp')
  | STOP => (inp, Raise StepperStop)
  | OtherType _ => (inp, Raise StepperError)
  end.

(** ** The solver.  A solution is its input, its flag (None: no flag) and the rest. *)
Context {Y I : Type}.
Record ssoln := mk_ssoln { ss_input : sinput; ss_flag : option Z; ss_data : Y }.
(** The run is attached to an open file, so a stored solution is the value at the time it was added. *)
Record sworld := mk_sw { sw_run : run ssoln I; sw_st : stepper_state }.
Definition with_run (w : sworld) (r : run ssoln I) : sworld := mk_sw r (sw_st w).

(** stepper.py:138-150. *)
Definition writer (w : sworld) (soln : ssoln) (attempt : nat) : sworld * res unit :=
  match ss_flag soln with
  | Some _ =>
      match add_solution soln (r_solutions (sw_run w)) with
      | Ok (_, d) => (with_run w (with_solutions (sw_run w) d), Ok tt)
      | Raise e => (w, Raise e)
      end
  | None => (w, Ok tt)
  end.
(** Assignment of run.final_solution to a solution and reading it back (stepper.py:164-165, 180-181). *)
Definition assign_final (w : sworld) (s : ssoln) : sworld * res (option ssoln) :=
  match set_final (sw_run w) (Some s) with
  | Ok r => (with_run w r, Ok (Some s))
  | Raise e => (w, Raise e)
  end.
(** stepper.py:153-167. *)
Definition cleanup (no_final_solution : bool) (w : sworld) (soln : ssoln) (attempt : nat) : sworld * res (option ssoln) :=
  match writer w soln attempt with
  | (w, Raise e) => (w, Raise e)
  | (w, Ok tt) =>
      if no_final_solution then (w, Ok None)
      else match get_last_solution (r_solutions (sw_run w)) with
           | Ok s => assign_final w s
           | Raise e => (w, Raise e)
           end
  end.
(** stepper.py:170-183. *)
Definition alternate_cleanup (no_final_solution : bool) (w : sworld) (attempt : nat) : sworld * res (option ssoln) :=
  if no_final_solution then (w, Ok None)
  else match dgetitem (str_of_nat attempt) (r_solutions (sw_run w)) with
       | Ok s => assign_final w s
       | Raise e => (w, Raise e)
       end.
(** stepper.py:106-133 with its calls: write, classify, advance, step. *)
Definition stepper (fuel max_search_steps : nat) (get_soln_type : ssoln -> res SplitterStatus)
  (w : sworld) (soln : ssoln) (attempt : nat) : sworld * res sinput :=
  match writer w soln attempt with
  | (w, Raise e) => (w, Raise e)
  | (w, Ok tt) =>
      match get_soln_type soln with
      | Raise e => (w, Raise e)
      | Ok soln_type =>
          let '(st, r) := stepper_advance max_search_steps (sw_st w) soln_type in
          let w := mk_sw (sw_run w) st in
          match r with
          | Raise e => (w, Raise e)
          | Ok step => (w, snd (step_func fuel (ss_input soln) soln_type step))
          end
      end
  end.
(** stepper.py:306-334.  [solution_func] stands for solution_generator's function (lines 254-271): it computes the solution
    of an input and whether it is the best one, or raises. *)
Definition solver (fuel : nat) (solution_func : sinput -> res (ssoln * bool)) (get_soln_type : ssoln -> res SplitterStatus)
  (soln_input : sinput) (r : run ssoln I) (num_attempts max_search_steps : nat) (no_final_solution : bool)
  : run ssoln I * res bool :=
  let w := mk_sw r (initial_stepper (tenth ar (s_γ soln_input))) in
  let '(w, best) := binary_searcher (fun w inp => (w, solution_func inp)) (cleanup no_final_solution)
                      (stepper fuel max_search_steps get_soln_type) (alternate_cleanup no_final_solution)
                      w soln_input num_attempts in
  match best with
  | Raise e => (sw_run w, Raise e)
  | Ok best_solution =>
      let r := sw_run w in
      let fin :=
        if no_final_solution then Ok r
        else match r_final r with Final _ => Ok r | _ => set_final r None end in
      match fin with
      | Raise e => (r, Raise e)
      | Ok r =>
          (r, Ok (match best_solution with
                  | Some (Some _) => true
                  | _ => no_final_solution         (* best_solution is None and not no_final_solution -> False *)
                  end))
      end
  end.
End Stepper.

(** ** Splitters *)
(** stepper.py:209-239.  [problems]: the lists of the problem log; [derivs]: the rows stored in the internal data, None if there
    is no internal data.  Line 223 indexes the rows by ODEIndex.v_θ = 5. *)
Definition v_θ_deriv_splitter (cutoff : R) (v_θ : list num) (internal : option (list (list string) * list (list num)))
  : res SplitterStatus :=
  let by_velocity :=
    if negb (existsb (near_sonic cutoff) v_θ) then Ok SIGN_FLIP
    else if existsb (fun v => nlt (Some 1%R) v) v_θ then Ok DIVERGE
    else if is_monotonically_increasing (filter (near_sonic cutoff) v_θ) then Ok DIVERGE
    else Ok SIGN_FLIP in
  match internal with
  | None => by_velocity
  | Some (problems, derivs) =>
      if existsb (fun pl => existsb (String.eqb "negative velocity") pl) problems then Ok SIGN_FLIP
      else match nth_error derivs 5 with
           | None => Raise Lib_Py.IndexError
           | Some deriv_v_θ =>
               if existsb (fun x => nlt (Some 0%R) x) (diff (diff deriv_v_θ)) then Ok DIVERGE
               else if existsb (fun x => nlt x (Some 0%R)) (diff deriv_v_θ) then Ok SIGN_FLIP
               else by_velocity
           end
  end.
(** stepper.py:242-251: which splitter is made; calling the None that dict.get gives for an unknown name is a TypeError. *)
Inductive splitter_kind := Deriv_splitter | Human_splitter.
Definition create_soln_splitter (method : string) : res splitter_kind :=
  if String.eqb method "v_θ_deriv" then Ok Deriv_splitter
  else if String.eqb method "human" then Ok Human_splitter
  else Raise TypeError.
