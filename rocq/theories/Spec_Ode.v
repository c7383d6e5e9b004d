(** Vocabulary for the statements about the ODE system: what it means for a curve of states to follow the
    right-hand side, and the fluid such a curve describes. *)
From Coq Require Import Reals.
From Verif Require Import Model_Index Model_Ode Spec_MHD.
Open Scope R_scope.

(** The curve [y] has, at angle [x], the derivatives that a successful call of the right-hand side returns
    for the state [y x]. *)
Definition solves_at (o : ode_args) (y : R -> vec) (x : R) : Prop :=
  exists d e, rhs_equation o x (y x) = Rhs_ok d e /\
    forall i, (i < ODE_LEN)%nat -> derivable_pt_lim (fun t => y t i) x (d i).

(** [y] is a solution on the open interval (lo, hi). *)
Definition solves_on (o : ode_args) (y : R -> vec) (lo hi : R) : Prop :=
  forall x, lo < x < hi -> solves_at o y x.

(** The self-similar fluid described by a curve of states. *)
Definition fluid_of (γ : R) (y : R -> vec) : fluid :=
  self_similar_fluid γ
    (fun t => y t iB_r) (fun t => y t iB_φ) (fun t => y t iB_θ)
    (fun t => y t iv_r) (fun t => y t iv_φ) (fun t => y t iv_θ) (fun t => y t iρ)
    (fun t => y t iη_O) (fun t => y t iη_A) (fun t => y t iη_H).

(** Conditions on a state under which no division by zero happens in the code. *)
Definition B_nonzero (p : vec) : Prop := 0 < p iB_r ^ 2 + p iB_φ ^ 2 + p iB_θ ^ 2.
(** η_O + η_A (1 - b_φ²) ≠ 0, the denominator in B_r' (b the unit field). *)
Definition diffusive (p : vec) : Prop :=
  p iη_O + p iη_A * (1 - p iB_φ ^ 2 / (p iB_r ^ 2 + p iB_φ ^ 2 + p iB_θ ^ 2)) <> 0.

(** A state written out slot by slot: B_r, B_φ, B_θ, v_r, v_φ, v_θ, ρ, (B_φ' or E_r), η_O, η_A, η_H. *)
Definition state (B_r B_φ B_θ v_r v_φ v_θ ρ s η_O η_A η_H : R) : vec := fun i =>
  match i with
  | 0 => B_r | 1 => B_φ | 2 => B_θ | 3 => v_r | 4 => v_φ | 5 => v_θ
  | 6 => ρ | 7 => s | 8 => η_O | 9 => η_A | 10 => η_H | _ => 0%R
  end%nat.
