(** What the stepping search is supposed to do, stated on the sequence of calls a caller observes. *)
From Coq Require Import List Bool Reals.
From Verif Require Import Lib_Py Model_Run Model_Stepper.
Import ListNotations.

Section Calls.
Context {W Inp Out Val : Type}.
(** One observed call of a callback with its arguments and outcome. *)
Inductive call :=
| Solve (inp : Inp) (r : res (Out * bool))
| Pass (out : Out) (attempt : nat) (r : res Val)
| Step (out : Out) (attempt : nat) (r : res Inp)
| Stopped (attempt : nat) (r : res Val).
(** Callbacks that record their calls. *)
Definition rec_func (f : W -> Inp -> W * res (Out * bool)) (w : W * list call) (inp : Inp) :=
  let '(w', r) := f (fst w) inp in ((w', snd w ++ [Solve inp r]), r).
Definition rec_pass (f : W -> Out -> nat -> W * res Val) (w : W * list call) (out : Out) (a : nat) :=
  let '(w', r) := f (fst w) out a in ((w', snd w ++ [Pass out a r]), r).
Definition rec_step (f : W -> Out -> nat -> W * res Inp) (w : W * list call) (out : Out) (a : nat) :=
  let '(w', r) := f (fst w) out a in ((w', snd w ++ [Step out a r]), r).
Definition rec_stop (f : W -> nat -> W * res Val) (w : W * list call) (a : nat) :=
  let '(w', r) := f (fst w) a in ((w', snd w ++ [Stopped a r]), r).

(** What an exception raised during attempt [a] leads to: further calls and the result. *)
Inductive after_exception (a : nat) : exn -> list call -> res (option Val) -> Prop :=
| ae_error : after_exception a StepperError [] (Ok None)
| ae_stop : forall r, after_exception a StepperStop [Stopped a r] (match r with Ok v => Ok (Some v) | Raise e => Raise e end)
| ae_other : forall e, e <> StepperError -> e <> StepperStop -> after_exception a e [] (Raise e).
(** The calls of a search from attempt [a] with input [inp] when [n] attempts are left, with the result. *)
Inductive search_calls : nat -> nat -> Inp -> list call -> res (option Val) -> Prop :=
| sc_exhausted : forall a inp, search_calls 0 a inp [] (Ok None)
| sc_pass : forall n a inp out v, search_calls (S n) a inp [Solve inp (Ok (out, true)); Pass out a (Ok v)] (Ok (Some v))
| sc_again : forall n a inp out inp' l r, search_calls n (S a) inp' l r ->
    search_calls (S n) a inp (Solve inp (Ok (out, false)) :: Step out a (Ok inp') :: l) r
| sc_solve_raises : forall n a inp e l r, after_exception a e l r ->
    search_calls (S n) a inp (Solve inp (Raise e) :: l) r
| sc_pass_raises : forall n a inp out e l r, after_exception a e l r ->
    search_calls (S n) a inp (Solve inp (Ok (out, true)) :: Pass out a (Raise e) :: l) r
| sc_step_raises : forall n a inp out e l r, after_exception a e l r ->
    search_calls (S n) a inp (Solve inp (Ok (out, false)) :: Step out a (Raise e) :: l) r.
Definition is_solve (c : call) := match c with Solve _ _ => true | _ => false end.
Definition is_pass (c : call) := match c with Pass _ _ _ => true | _ => false end.
Definition is_stopped (c : call) := match c with Stopped _ _ => true | _ => false end.
Definition count (p : call -> bool) (l : list call) : nat := length (filter p l).
End Calls.
Arguments call : clear implicits.

(** The step sizes of a history of solution types: [None] is the step error. *)
Section Sizes.
Variable ar : arith.
Fixpoint sizes (mx : nat) (st : stepper_state ar) (ts : list SplitterStatus) : list (option (F ar)) :=
  match ts with
  | [] => []
  | t :: ts' => match stepper_advance ar mx st t with
                | (st', Ok s) => Some s :: sizes mx st' ts'
                | (_, Raise _) => [None]
                end
  end.
End Sizes.
Fixpoint halve (n : nat) (x : R) : R := match n with O => x | S n' => (halve n' x / 2)%R end.

(** A threshold oracle: above γ* solutions diverge, below they flip sign. *)
Definition threshold (γs : R) (ty : R -> SplitterStatus) : Prop :=
  forall γ, (ty γ = DIVERGE \/ ty γ = SIGN_FLIP) /\ ((γs < γ)%R -> ty γ = DIVERGE) /\ ((γ < γs)%R -> ty γ = SIGN_FLIP).

(** γ and the stepper's variables after [n] failed attempts, when the solution at attempt [i] with value γ is of type [ty i γ]
    (an arbitrary, possibly inconsistent, judge); None once a step raises.  Exact arithmetic. *)
Section Trajectory.
Context {X : Type}.
Variable ty : nat -> R -> SplitterStatus.
Variable mx : nat.
Definition one_step (i : nat) (p : stepper_state R_arith * R) (rest : X) : option (stepper_state R_arith * R) :=
  let '(st, γ) := p in
  match stepper_advance R_arith mx st (ty i γ) with
  | (_, Raise _) => None
  | (st', Ok s) =>
      match snd (step_func R_arith 0 (mk_sinput R_arith (γ : F R_arith) rest) (ty i γ) s) with
      | Ok inp' => Some (st', s_γ R_arith inp')
      | Raise _ => None
      end
  end.
Fixpoint trajectory (n : nat) (p : stepper_state R_arith * R) (rest : X) : option (stepper_state R_arith * R) :=
  match n with
  | O => Some p
  | S n' => match trajectory n' p rest with Some q => one_step n' q rest | None => None end
  end.
End Trajectory.
