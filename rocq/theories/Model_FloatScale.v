(** Scaled angles in floating-point arithmetic.

    Every operation gives its exact result, rounded (Model_Float.v).  [None] is Python's None.  Simplification: no overflow, infinities or
    NaN; one number at a time, where the code also passes arrays, on which numpy works element by element. *)
From Coq Require Import ZArith Reals.
From Verif Require Import Model_Float Model_FloatRhs.
Local Open Scope R_scope.

Section FloatScale.
Variables emin prec : Z.
(** solve/utils.py:130-136. *)
Definition f_rad_to_scaled (obj : option R) (θ_scale : R) : option R :=
  match obj with None => None | Some x => Some (f_div emin prec x θ_scale) end.
(** solve/utils.py:139-145. *)
Definition f_scaled_to_rad (obj : option R) (θ_scale : R) : option R :=
  match obj with None => None | Some x => Some (f_mul emin prec x θ_scale) end.
End FloatScale.
