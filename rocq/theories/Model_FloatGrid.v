(** The grid of angles in floating-point arithmetic (config.py:98, hydrostatic.py:89, mod_hydro.py:95).

    Every operation gives its exact result, rounded (Model_Float.v).  Simplification: no overflow; the indices are exact, as they are
    below 2^prec. *)
From Coq Require Import ZArith Reals List.
From Verif Require Import Model_Array Model_Float Model_FloatRhs.
Import ListNotations.
Local Open Scope R_scope.

Section FloatGrid.
Variables emin prec : Z.
(** numpy.linspace(start, stop, num): the steps from start, the last number replaced by stop. *)
Definition f_linspace (start stop : R) (num : nat) : list R :=
  let delta := f_sub emin prec stop start in
  let div := (num - 1)%nat in
  let step := f_div emin prec delta (INR div) in
  map (fun i =>
    if andb (Nat.eqb i div) (Nat.ltb 1 num) then stop
    else f_add emin prec
           (if Nat.eqb div 0 then f_mul emin prec (INR i) delta
            else if Reqb step 0 then f_mul emin prec (f_div emin prec (INR i) (INR div)) delta
            else f_mul emin prec (INR i) step) start) (seq 0 num).
(** numpy.radians: multiplication by the constant NPY_PI / 180. *)
Definition f_radians (x : R) : R := f_mul emin prec x (f_div emin prec (rounded emin prec PI) 180).
Definition f_angles (start stop : R) (num : nat) : list R := map f_radians (f_linspace start stop num).
End FloatGrid.
