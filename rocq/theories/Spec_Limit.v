(** Vocabulary of C132: a search that does not assume a threshold. *)
From Coq Require Import Reals.
From Verif Require Import Lib_Py Model_Run Model_Stepper Spec_Stepper.
Open Scope R_scope.

(** Every solution is said to diverge or to flip its sign; nothing is assumed about where. *)
Definition two_answers (ty : R -> SplitterStatus) : Prop := forall γ, ty γ = DIVERGE \/ ty γ = SIGN_FLIP.
(** The search from [γ0] with the step [s0] meets the other answer at [γ1] after [m] steps, or earlier: it goes down from a solution
    that diverges, up from one that flips its sign. *)
Definition meets_other (ty : R -> SplitterStatus) (γ0 s0 : R) (m : nat) (γ1 : R) : Prop :=
  (ty γ0 = DIVERGE /\ γ1 = γ0 - INR m * s0 /\ ty γ1 = SIGN_FLIP) \/ (ty γ0 = SIGN_FLIP /\ γ1 = γ0 + INR m * s0 /\ ty γ1 = DIVERGE).
(** As near to [γs] as one likes there is a γ up to [γs] that flips its sign and one from [γs] on that diverges, between [g0] and [g1]. *)
Definition between_answers (ty : R -> SplitterStatus) (g0 g1 γs : R) : Prop :=
  forall ε, 0 < ε -> exists lo hi, g0 <= lo <= γs /\ γs <= hi <= g1 /\ hi - lo < ε /\ ty lo = SIGN_FLIP /\ ty hi = DIVERGE.
(** The values the search tries, once it has met the other answer after [n] attempts, approach [γs]: the distance is halved by every
    attempt. *)
Definition approaches {X : Type} (rest : X) (ty : R -> SplitterStatus) (mx : nat) (γ0 s0 : R) (n : nat) (γs : R) : Prop :=
  forall k, exists st γ, trajectory (fun _ => ty) mx (S n + k) (initial_stepper R_arith (s0 : F R_arith), γ0) rest = Some (st, γ) /\
    Rabs (γ - γs) <= s0 / 2 ^ S k.
