(** Jacobians of stored solutions: src/disc_solver/analyse/compute_jacobian.py:166-202 (compute_jacobian), 205-228 (from a solution),
    525-548 (at one index), 551-587 (coefficients of eigenvectors) and 599-620 (the index handed to it).

    An angle and a row of eleven numbers are one entry of the arrays.  Matrices are functions of row and column, real: where an eigenvector is
    complex the code keeps complex numbers and this model says nothing.  The eigenvector routine and the matrix inverse are arguments. *)
From Coq Require Import Reals List Bool ZArith.
From Verif Require Import Model_Index Model_Array Model_Ode Model_Critical.
Import ListNotations.
Open Scope R_scope.

Definition mat := nat -> nat -> R.

(** compute_jacobian.py:173-178: the system the rows are put through. *)
Definition jacobian_system (γ a_0 norm_kepler_sq : R) (init_con : vec) (θ_scale : R) (η_derivs use_E_r : bool) : ode_args :=
  mk_ode_args γ a_0 norm_kepler_sq init_con θ_scale false η_derivs false use_E_r None true.
(** The row of derivatives written by one call (zeros if the call returned before writing). *)
Definition rhs_row (o : ode_args) (x : R) (params : vec) : vec :=
  match rhs_equation o x params with Rhs_ok d _ => d | _ => zeros end.
(** compute_jacobian.py:186-201, at one row: entry [j, i] is derivative j differenced in variable i. *)
Definition jacobian_row (o : ode_args) (eps x : R) (params : vec) : mat := fun j i =>
  let params_h := upd i (params i + eps) params in
  let params_l := upd i (params i - eps) params in
  (rhs_row o x params_h j - rhs_row o x params_l j) / (2 * eps).
(** compute_jacobian.py:166-202: one matrix for every row. *)
Definition compute_jacobian (o : ode_args) (eps : R) (soln : list (R * vec)) : list mat :=
  map (fun p => jacobian_row o eps (fst p) (snd p)) soln.

(** [l[slice(a, b)]] for integers (CPython's PySlice_AdjustIndices with step 1). *)
Definition adjust (n i : Z) : Z := (if i <? 0 then Z.max 0 (i + n) else Z.min i n)%Z.
Definition zslice {A} (l : list A) (a b : Z) : list A :=
  let n := Z.of_nat (length l) in
  firstn (Z.to_nat (adjust n b - adjust n a)) (skipn (Z.to_nat (adjust n a)) l).
(** [l[i]] for an integer. *)
Definition zindex {A} (l : list A) (i : Z) : py A :=
  let n := Z.of_nat (length l) in
  let k := (if i <? 0 then i + n else i)%Z in
  if (k <? 0)%Z then IndexError else match nth_error l (Z.to_nat k) with Some a => Ret a | None => IndexError end.

(** compute_jacobian.py:525-548. *)
Definition compute_jacobian_at_index (o : ode_args) (eps : R) (soln : list (R * vec)) (index : Z) : py mat :=
  zindex (compute_jacobian o eps (zslice soln index (index + 1))) 0.

Definition ode_size : nat := 11.
Definition dot (m : mat) (v : vec) : vec := fun i => fold_right Rplus 0 (map (fun j => m i j * v j) (seq 0 ode_size)).
Definition vminus (a b : vec) : vec := fun i => a i - b i.

Section Coefs.
Variable eigvecs : mat -> mat.
Variable inv : mat -> mat.
(** compute_jacobian.py:551-587. *)
Definition eigenvector_coefs (o : ode_args) (eps : R) (soln : list (R * vec)) (index : Z) (local_eigvecs : bool) : py (list vec) :=
  pybind (zindex soln index) (fun critical =>
  let subtracted := map (fun p => vminus (snd p) (snd critical)) soln in
  if local_eigvecs then
    let inv_eigvecs := map (fun j => inv (eigvecs j)) (compute_jacobian o eps soln) in
    Ret (map (fun p => dot (fst p) (snd p)) (combine inv_eigvecs subtracted))
  else
    pybind (compute_jacobian_at_index o eps soln index) (fun jac =>
    let inv_eigvecs := inv (eigvecs jac) in
    Ret (map (dot inv_eigvecs) subtracted))).
(** compute_jacobian.py:605-620: a missing critical point becomes the index -1. *)
Definition chosen_index (found : option nat) : Z := match found with Some i => Z.of_nat i | None => (-1)%Z end.
Definition coefs_around (o : ode_args) (eps : R) (soln : list (R * vec)) (found : option nat) (local_eigvecs : bool) : py (list vec) :=
  eigenvector_coefs o eps soln (chosen_index found) local_eigvecs.
End Coefs.
